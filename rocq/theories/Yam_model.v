(** Search spaces written in YAML: neps/search_spaces/yaml_search_space_utils.py and
    neps/search_spaces/search_space.py:98-168 pipeline_space_from_yaml.

    Strings are ASCII (Python also takes other digits and blanks), dictionary keys are strings.
    The constructors of the parameters are given by [build]; so is the content of the file.
    Functions that change the dictionary they are given return it, also when they raise.
    Lists shared between two parameters by YAML aliases are not modelled as shared. *)
From Verif Require Export Py Set_model.
From Coq Require Export Ascii.
Open Scope string_scope.
Open Scope list_scope.
Local Notation length := List.length.

(** ** Characters (str methods of Python) *)
Definition str_list (s : string) : list ascii := list_ascii_of_string s.
Definition code (c : ascii) : nat := nat_of_ascii c.
Definition is_digit (c : ascii) : bool := (48 <=? code c)%nat && (code c <=? 57)%nat.
Definition digit (c : ascii) : Z := Z.of_nat (code c - 48).
(** what [float()] strips: str.isspace *)
Definition is_space (c : ascii) : bool := ((9 <=? code c) && (code c <=? 13))%nat || ((28 <=? code c) && (code c <=? 32))%nat.
Definition lower_char (c : ascii) : ascii := if ((65 <=? code c) && (code c <=? 90))%nat then ascii_of_nat (code c + 32) else c.
(** str.lower *)
Definition lower (s : string) : string := string_of_list_ascii (map lower_char (str_list s)).
Fixpoint drop_while (f : ascii -> bool) (l : list ascii) : list ascii :=
  match l with [] => [] | c :: l' => if f c then drop_while f l' else l end.
(** str.strip *)
Definition strip (l : list ascii) : list ascii := rev (drop_while is_space (rev (drop_while is_space l))).
(** the leading digits, and the rest *)
Fixpoint span_digits (l : list ascii) : list ascii * list ascii :=
  match l with
  | c :: l' => if is_digit c then let (d, r) := span_digits l' in (c :: d, r) else ([], l)
  | [] => ([], [])
  end.
Definition number (d : list ascii) : Z := fold_left (fun n c => (n * 10 + digit c)%Z) d 0%Z.
Definition is_char (n : nat) (c : ascii) : bool := Nat.eqb (code c) n.
(** an optional character out of [f] *)
Definition opt_char (f : ascii -> bool) (l : list ascii) : option ascii * list ascii :=
  match l with c :: l' => if f c then (Some c, l') else (None, l) | [] => (None, []) end.
Definition minus := is_char 45. Definition plus := is_char 43. Definition dot := is_char 46.
Definition is_e (c : ascii) : bool := is_char 69 c || is_char 101 c.
Definition newline := is_char 10. Definition underscore := is_char 95. Definition blank := is_char 32.

(** ** Rounding a number p / q, p >= 0, to binary64, half to even *)
Definition div_even (a b : Z) : Z :=
  let q := Z.div a b in let r := Z.modulo a b in
  if (2 * r <? b)%Z then q else if (b <? 2 * r)%Z then (q + 1)%Z else if Z.even q then q else (q + 1)%Z.
Definition round64 (p q : Z) : fl :=
  let P := (p * fl_unit)%Z in
  let k := Z.max 0 (Z.log2 (Z.div P q) - 52) in
  let z := (div_even P (q * 2 ^ k) * 2 ^ k)%Z in
  if (2 ^ (1024 + 1074) <=? z)%Z then FPInf else FZ z.
Definition fl_neg (f : fl) : fl := match f with FNaN => FNaN | FPInf => FNInf | FNInf => FPInf | FZ z => FZ (- z) end.
(** the double nearest to [m * 10^e] *)
Definition dec_float (neg : bool) (m e : Z) : fl :=
  let f := if (0 <=? e)%Z then round64 (m * 10 ^ e) 1 else round64 m (10 ^ (- e)) in
  if neg then fl_neg f else f.

(** ** [float(s)] for a string (CPython, Objects/floatobject.c and Python/pystrtod.c) *)
(** underscores only between digits; they are left out *)
Fixpoint no_underscores (prev : option ascii) (l : list ascii) : option (list ascii) :=
  match l with
  | [] => match prev with Some c => if underscore c then None else Some [] | None => Some [] end
  | c :: l' =>
      if underscore c then
        match prev with Some p => if is_digit p then no_underscores (Some c) l' else None | None => None end
      else
        match prev with
        | Some p => if underscore p && negb (is_digit c) then None else option_map (cons c) (no_underscores (Some c) l')
        | None => option_map (cons c) (no_underscores (Some c) l')
        end
  end.
(** digits, fraction, exponent *)
Definition unsigned (neg : bool) (l : list ascii) : res fl :=
  let (i, l1) := span_digits l in
  let (p, l2) := opt_char dot l1 in
  let (f, l3) := match p with Some _ => span_digits l2 | None => ([], l2) end in
  if Nat.eqb (length i + length f) 0 then Err ValueError else
  let m := number (i ++ f) in
  let '(e, l4) := opt_char is_e l3 in
  match e with
  | None => match l4 with [] => Ok (dec_float neg m (- Z.of_nat (length f))) | _ => Err ValueError end
  | Some _ =>
      let (s, l5) := opt_char (fun c => minus c || plus c) l4 in
      let (x, l6) := span_digits l5 in
      match x, l6 with
      | _ :: _, [] =>
          let n := match s with Some c => if minus c then (- number x)%Z else number x | None => number x end in
          Ok (dec_float neg m (n - Z.of_nat (length f)))
      | _, _ => Err ValueError
      end
  end.
Definition words (l : list ascii) (s : string) : bool := String.eqb (string_of_list_ascii (map lower_char l)) s.
Definition float_of_string (s : string) : res fl :=
  match no_underscores None (strip (str_list s)) with
  | None => Err ValueError
  | Some l =>
      let (g, l1) := opt_char (fun c => minus c || plus c) l in
      let neg := match g with Some c => minus c | None => false end in
      if words l1 "inf" || words l1 "infinity" then Ok (if neg then FNInf else FPInf)
      else if words l1 "nan" then Ok FNaN
      else unsigned neg l1
  end.
(** [float(n)] for an integer: OverflowError if it is too large *)
Definition float_of_int (z : Z) : res fl :=
  match dec_float (z <? 0)%Z (Z.abs z) 0 with
  | FZ x => Ok (FZ x)
  | _ => Err OverflowError
  end.
(** [float(v)] *)
Definition py_float (v : pyval) : res fl :=
  match v with
  | VStr s => float_of_string s
  | VBool b => Ok (fl_of_Z (if b then 1 else 0))
  | VInt z => float_of_int z
  | VFloat f => Ok f
  | _ => Err TypeError
  end.
(** [int(f)] for a float *)
Definition int_of_float (f : fl) : res Z :=
  match f with FNaN => Err ValueError | FPInf | FNInf => Err OverflowError | FZ z => Ok (Z.quot z fl_unit) end.
(** [f == n] *)
Definition fl_is_int (f : fl) (n : Z) : bool := fl_eqb f (fl_of_Z n).

(** ** yaml_search_space_utils.py *)
(** 49, 58: [re.match(r"^-?\d+(\.\d+)?[eE]-?\d+$", ...)]; [$] also matches before a newline at the end *)
Definition e_notation (l : list ascii) : bool :=
  let (_, l1) := opt_char minus l in
  let (i, l2) := span_digits l1 in
  let (p, l3) := opt_char dot l2 in
  let (f, l4) := match p with Some _ => span_digits l3 | None => ([], l3) end in
  let (e, l5) := opt_char is_e l4 in
  let (_, l6) := opt_char minus l5 in
  let (x, l7) := span_digits l6 in
  negb (Nat.eqb (length i) 0) &&
  match p with Some _ => negb (Nat.eqb (length f) 0) | None => true end &&
  match e with Some _ => true | None => false end &&
  negb (Nat.eqb (length x) 0) &&
  match l7 with [] => true | [c] => newline c | _ => false end.
(** 20-64: the float and the flag *)
Definition flagged (v : pyval) : bool :=
  match v with VStr s => e_notation (filter (fun c => negb (blank c)) (str_list s)) | _ => false end.
Definition convert (v : pyval) : res (fl * bool) := bind (py_float v) (fun f => Ok (f, flagged v)).

(** [d[k]] *)
Definition item (k : string) (d : dict) : res pyval := match lookup k d with Some v => Ok v | None => Err KeyError end.
(** [except ValueError: raise TypeError] *)
Definition value_to_type {A} (r : res A) : res A := match r with Err ValueError => Err TypeError | _ => r end.

(** the conversion of the two bounds in place (162-168, 283-284) *)
Definition convert_bounds (d : dict) : dict * res (bool * bool) :=
  match bind (item "lower" d) convert with
  | Err e => (d, Err e)
  | Ok (l, fl_l) =>
      let d := set_key "lower" (VFloat l) d in
      match bind (item "upper" d) convert with
      | Err e => (d, Err e)
      | Ok (u, fl_u) => (set_key "upper" (VFloat u) d, Ok (fl_l, fl_u))
      end
  end.
(** 130-198 *)
Definition deduce_param_type (d : dict) : dict * res string :=
  match lookup "lower" d, lookup "upper" d with
  | Some l, Some u =>
      if is_intv l && is_intv u then (d, Ok "int")
      else if is_floatv l && is_floatv u then (d, Ok "float")
      else
        let (d, r) := convert_bounds d in
        (d, bind (value_to_type r) (fun fs => if fst fs || snd fs then Ok "float" else Err TypeError))
  | _, _ => if has_key "choices" d then (d, Ok "categorical") else (d, Err KeyError)
  end.
(** 97-127 *)
Definition deduce_type (v : pyval) : pyval * res string :=
  match v with
  | VStr _ | VBool _ | VInt _ | VFloat _ => (v, Ok "const")
  | VDict d =>
      match lookup "type" d with
      | Some t => (VDict (remove_key "type" d), match t with VStr s => Ok (lower s) | _ => Err AssertionError end)
      | None => let (d, r) := deduce_param_type d in (VDict d, r)
      end
  | _ => (v, Err TypeError)
  end.

(** 232-234, 248-249: [if x == int(x): int(x) else raise TypeError()] *)
Definition exact_int (f : fl) : res Z := bind (int_of_float f) (fun n => if fl_is_int f n then Ok n else Err TypeError).
(** 224-238 *)
Definition int_bounds (l u : pyval) : res (Z * Z) :=
  bind (convert l) (fun lf => bind (convert u) (fun uf =>
  if snd lf || snd uf then
    (* lower == int(lower) and upper == int(upper) *)
    bind (int_of_float (fst lf)) (fun n =>
    if fl_is_int (fst lf) n then
      bind (int_of_float (fst uf)) (fun m => if fl_is_int (fst uf) m then Ok (n, m) else Err TypeError)
    else Err TypeError)
  else Err TypeError)).
(** 201-257 *)
Definition formatting_int (d : dict) : dict * res unit :=
  match item "lower" d with
  | Err e => (d, Err e)
  | Ok l =>
  match (if is_intv l then item "upper" d else Ok VNone) with
  | Err e => (d, Err e)
  | Ok u0 =>
      let first :=
        if is_intv l && is_intv u0 then (d, Ok tt)
        else match item "upper" d with
             | Err e => (* lower is converted first; KeyError is not caught *)
                 (d, match value_to_type (convert l) with Err e' => Err e' | Ok _ => Err e end)
             | Ok u => match value_to_type (int_bounds l u) with
                       | Err e => (d, Err e)
                       | Ok (n, m) => (set_key "upper" (VInt m) (set_key "lower" (VInt n) d), Ok tt)
                       end
             end in
      match first with
      | (d, Err e) => (d, Err e)
      | (d, Ok _) =>
          match lookup "default" d with
          | None => (d, Ok tt)
          | Some v =>
              if is_intv v then (d, Ok tt)
              else match value_to_type (bind (convert v) (fun fb => exact_int (fst fb))) with
                   | Ok n => (set_key "default" (VInt n) d, Ok tt)
                   | Err e => (d, Err e)
                   end
          end
      end
  end
  end.
(** 260-298 *)
Definition formatting_float (d : dict) : dict * res unit :=
  match item "lower" d with
  | Err e => (d, Err e)
  | Ok l =>
  match (if is_floatv l then item "upper" d else Ok VNone) with
  | Err e => (d, Err e)
  | Ok u0 =>
      let first :=
        if is_floatv l && is_floatv u0 then (d, Ok tt)
        else let (d, r) := convert_bounds d in (d, bind (value_to_type r) (fun _ => Ok tt)) in
      match first with
      | (d, Err e) => (d, Err e)
      | (d, Ok _) =>
          match lookup "default" d with
          | None => (d, Ok tt)
          | Some v =>
              if is_floatv v then (d, Ok tt)
              else match value_to_type (convert v) with
                   | Ok (f, _) => (set_key "default" (VFloat f) d, Ok tt)
                   | Err e => (d, Err e)
                   end
          end
      end
  end
  end.
(** 321-331, 342-351, 373-383: the value converted if it is in e notation; not being a number is ignored *)
Definition convert_flagged (v : pyval) : res pyval :=
  match convert v with
  | Ok (f, true) => Ok (VFloat f)
  | Ok (_, false) | Err ValueError => Ok v
  | Err e => Err e
  end.
(** 321-331 *)
Fixpoint convert_choices (l : list pyval) : list pyval * res unit :=
  match l with
  | [] => ([], Ok tt)
  | v :: l' =>
      match convert_flagged v with
      | Err e => (l, Err e)
      | Ok w => let (m, r) := convert_choices l' in (w :: m, r)
      end
  end.
(** 301-353 *)
Definition formatting_cat (d : dict) : dict * res unit :=
  match item "choices" d with
  | Err e => (d, Err e)
  | Ok (VList l) =>
      let (l', r) := convert_choices l in
      let d := set_key "choices" (VList l') d in
      match r with
      | Err e => (d, Err e)
      | Ok _ =>
          match lookup "default" d with
          | None => (d, Ok tt)
          | Some v =>
              if is_str v || is_intv v || is_floatv v then
                match convert_flagged v with
                | Ok w => (set_key "default" w d, Ok tt)
                | Err e => (d, Err e)
                end
              else (d, Err TypeError)
          end
      end
  | Ok _ => (d, Err TypeError)
  end.
(** 356-385 *)
Definition formatting_const (v : pyval) : res pyval := convert_flagged v.

(** ** search_space.py:98-168 *)
Inductive kind : Type := KInt | KFloat | KCat.
(** 143-152 *)
Definition kind_of (t : string) : option kind :=
  if smem t ["int"; "integer"] then Some KInt
  else if String.eqb t "float" then Some KFloat
  else if smem t ["cat"; "categorical"] then Some KCat
  else None.

Section Load.
  Context {P : Type}.
  (** [IntegerParameter( **d)], [FloatParameter( **d)], [CategoricalParameter( **d)], [ConstantParameter(v)] *)
  Variable build : kind -> dict -> res P.
  Variable build_const : pyval -> res P.

  (** 141-164: one parameter; the details afterwards and the parameter *)
  Definition parameter (v : pyval) : pyval * res P :=
    let (v, t) := deduce_type v in
    match t with
    | Err e => (v, Err e)
    | Ok t =>
        match kind_of t, v with
        | Some k, VDict d =>
            let (d, r) := match k with KInt => formatting_int d | KFloat => formatting_float d | KCat => formatting_cat d end in
            (VDict d, bind r (fun _ => build k d))
        | Some _, _ => (v, Err TypeError)
        | None, _ => if String.eqb t "const" then (v, bind (formatting_const v) build_const) else (v, Err TypeError)
        end
    end.
  (** 140-164 *)
  Fixpoint parameters (items : dict) : dict * res (list (string * P)) :=
    match items with
    | [] => ([], Ok [])
    | (k, v) :: items' =>
        let (v, r) := parameter v in
        match r with
        | Err e => ((k, v) :: items', Err e)
        | Ok p => let (d, r) := parameters items' in ((k, v) :: d, bind r (fun ps => Ok ((k, p) :: ps)))
        end
    end.
  (** 136-164: the dictionary afterwards and the parameters *)
  Definition read_space (config : pyval) : pyval * res (list (string * P)) :=
    match config with
    | VDict d =>
        if Nat.eqb (length d) 1 && has_key "pipeline_space" d then
          match lookup "pipeline_space" d with
          | Some (VDict d') => let (d', r) := parameters d' in (VDict [("pipeline_space", VDict d')], r)
          | _ => (config, Err AttributeError)
          end
        else let (d, r) := parameters d in (VDict d, r)
    | _ => (config, Err TypeError)
    end.
  (** what comes out: the parameters, a SearchSpaceFromYamlFileError made of [e], or [e] itself *)
  Inductive outcome : Type := Space (ps : list (string * P)) | Wrapped (e : exn) | Raw (e : exn).
  (** 165-166 *)
  Definition wrap (r : res (list (string * P))) : outcome :=
    match r with
    | Ok ps => Space ps
    | Err e => match e with KeyError | TypeError | ValueError | FileNotFoundError => Wrapped e | _ => Raw e end
    end.
  (** given a dictionary *)
  Definition space_from_dict (config : dict) : pyval * outcome := let (v, r) := read_space (VDict config) in (v, wrap r).
  (** 115-134: given a path, whose file has the content [file] (YAMLError is ValueError already) *)
  Definition space_from_file (file : res pyval) : outcome :=
    wrap (bind file (fun v => match v with VDict _ => snd (read_space v) | _ => Err ValueError end)).
End Load.
