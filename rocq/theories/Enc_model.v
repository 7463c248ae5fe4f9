(** Encoding configurations as tensors (neps/search_spaces/encoding.py).

    A tensor of shape (n, ncols) is the list of its rows.  Devices and dtypes are not modelled:
    the numbers have the type [T] of the arithmetic. *)
From Verif Require Export Dom_model.
Open Scope nat_scope.
Local Notation length := List.length.

(** A list comprehension over a function that may raise. *)
Fixpoint mapM {A B} (f : A -> res B) (l : list A) : res (list B) :=
  match l with
  | [] => Ok []
  | x :: l' => bind (f x) (fun y => bind (mapM f l') (fun ys => Ok (y :: ys)))
  end.

(** The values of hyperparameters: numbers, or any other Python value. *)
Inductive hval (T : Type) : Type := HN (x : T) | HC (c : pyval).
Arguments HN {T} x. Arguments HC {T} c.

(** [l[i]] *)
Definition py_index {A} (l : list A) (i : Z) : res A :=
  let j := if Z.ltb i 0 then (i + Z.of_nat (length l))%Z else i in
  if Z.ltb j 0 then Err IndexError
  else match nth_error l (Z.to_nat j) with Some x => Ok x | None => Err IndexError end.

(** [sorted(d.items(), key=lambda t: t[0])]; the names compare as their UTF-8 encodings, which
    is the order of the code points. *)
Fixpoint insert_name {A} (k : string) (v : A) (l : list (string * A)) : list (string * A) :=
  match l with
  | [] => [(k, v)]
  | (k', v') :: l' => if String.ltb k' k then (k', v') :: insert_name k v l' else (k, v) :: l
  end.
Fixpoint sort_names {A} (l : list (string * A)) : list (string * A) :=
  match l with [] => [] | (k, v) :: l' => insert_name k v (sort_names l') end.

Section Encoding.
  Context {T : Type} (A : arith T).
  (** Python's [==], and whether a value can be a key of a dictionary. *)
  Variables (heq : hval T -> hval T -> bool) (hashable : hval T -> bool).

  (** The transformers with their fields. *)
  Inductive transformer : Type :=
  | CatToInt (choices : list (hval T)) (dom : domain T)          (* CategoricalToIntegerTransformer *)
  | CatToUnit (choices : list (hval T)) (dom int_dom : domain T) (* CategoricalToUnitNorm *)
  | MinMax (original dom : domain T).                            (* MinMaxNormalizer *)

  (** [transformer.domain] *)
  Definition t_domain (t : transformer) : domain T :=
    match t with CatToInt _ d => d | CatToUnit _ d _ => d | MinMax _ d => d end.

  (** encoding.py:76-85 (CategoricalToIntegerTransformer.__post_init__); the lookup table is
      below. *)
  Definition cat_to_int (choices : list (hval T)) : res transformer :=
    match choices with
    | [] => Err AssertionError
    | _ => bind (indices A (Z.of_nat (length choices)) true) (fun d => Ok (CatToInt choices d))
    end.

  (** encoding.py:129-136 (CategoricalToUnitNorm.__post_init__) *)
  Definition cat_to_unit (choices : list (hval T)) : res transformer :=
    bind (floating A (aZ A 0) (aZ A 1) false (Some (Z.of_nat (length choices))) true) (fun d =>
    match choices with
    | [] => Err AssertionError
    | _ => bind (indices A (Z.of_nat (length choices)) true) (fun di => Ok (CatToUnit choices d di))
    end).

  (** encoding.py:177-181 (MinMaxNormalizer.__post_init__) *)
  Definition min_max (original : domain T) (bins : option Z) : res transformer :=
    match bins with
    | None => Ok (MinMax original (unit_float_domain A))
    | Some _ => bind (floating A (aZ A 0) (aZ A 1) false bins false) (fun d => Ok (MinMax original d))
    end.

  (** [self.choices.index(c)]: the first one that is equal. *)
  Fixpoint first_index (l : list (hval T)) (c : hval T) (i : Z) : res Z :=
    match l with
    | [] => Err ValueError
    | x :: l' => if heq x c then Ok i else first_index l' c (i + 1)%Z
    end.
  (** [{c: i for i, c in enumerate(choices)}[c]]: the last one that is equal. *)
  Fixpoint last_index (l : list (hval T)) (c : hval T) (i : Z) (found : res Z) : res Z :=
    match l with
    | [] => found
    | x :: l' => last_index l' c (i + 1)%Z (if heq x c then Ok i else found)
    end.

  (** encoding.py:99-103: with a lookup table if there are more than three choices and all of
      them can be hashed (81-85). *)
  Definition choice_index (choices : list (hval T)) (c : hval T) : res Z :=
    if Nat.ltb 3 (length choices) && forallb hashable choices then
      if hashable c then last_index choices c 0 (Err KeyError) else Err TypeError
    else first_index choices c 0.

  (** encoding.py:88-110, 139-158, 184-204: one value.  [torch.tensor] of something else than a
      number raises. *)
  Definition encode_one (t : transformer) (v : hval T) : res T :=
    match t with
    | CatToInt choices _ => bind (choice_index choices v) (fun i => Ok (arint A (aZ A i)))
    | CatToUnit choices d di => bind (choice_index choices v) (fun i => Ok (cast A d di (aZ A i)))
    | MinMax original d =>
        match v with
        | HN x => Ok (cast A d original x)
        | HC _ => Err TypeError
        end
    end.

  (** [int(i)] of an element of a tensor *)
  Definition to_index (x : T) : res Z :=
    match aint A x with Some i => Ok i | None => Err ValueError end.
  (** encoding.py:113-114, 161-163, 207-209: one value *)
  Definition decode_one (t : transformer) (x : T) : res (hval T) :=
    match t with
    | CatToInt choices _ => bind (to_index (arint A x)) (py_index choices)
    | CatToUnit choices _ _ =>
        let x := atrunc A (arint A (amul A x (aZ A (Z.of_nat (length choices) - 1)))) in
        bind (to_index (arint A x)) (py_index choices)
    | MinMax original _ => Ok (HN (from_unit A original x))
    end.

  (** encoding.py:241-247 (the fields of ConfigEncoder); [index_of] is the position. *)
  Record encoder : Type := mkEnc {
    transformers : list (string * transformer);
    constants : list (string * hval T) }.

  (** encoding.py:249-264 (__post_init__) *)
  Definition config_encoder (ts : list (string * transformer)) (cs : list (string * hval T)) : encoder :=
    mkEnc (sort_names ts) cs.
  (** encoding.py:266-274 *)
  Definition ncols (e : encoder) : nat := length (transformers e).
  Definition domains (e : encoder) : list (domain T) := map (fun t => t_domain (snd t)) (transformers e).

  (** [conf[hp_name]] *)
  Definition getitem (name : string) (conf : list (string * hval T)) : res (hval T) :=
    match lookup name conf with Some v => Ok v | None => Err KeyError end.

  (** Row [i] of a list of columns, and column [j] of a list of rows. *)
  Fixpoint pick {B} (i : nat) (ls : list (list B)) : list B :=
    match ls with
    | [] => []
    | l :: ls' => match nth_error l i with Some x => x :: pick i ls' | None => pick i ls' end
    end.

  (** encoding.py:276-319 (ConfigEncoder.encode): the columns one after the other. *)
  Definition encode (e : encoder) (confs : list (list (string * hval T))) : res (list (list T)) :=
    bind (mapM (fun t => bind (mapM (getitem (fst t)) confs) (mapM (encode_one (snd t)))) (transformers e))
         (fun cols => Ok (map (fun i => pick i cols) (seq 0 (length confs)))).

  (** encoding.py:333-336: the decoded columns; [x[:, lookup]] raises if there are fewer columns. *)
  Fixpoint decode_cols (j : nat) (ts : list (string * transformer)) (x : list (list T))
    : res (list (string * list (hval T))) :=
    match ts with
    | [] => Ok []
    | (name, t) :: ts' =>
        bind (mapM (fun row => match nth_error row j with Some v => Ok v | None => Err IndexError end) x) (fun col =>
        bind (mapM (decode_one t) col) (fun vs =>
        bind (decode_cols (S j) ts' x) (fun rest => Ok ((name, vs) :: rest))))
    end.
  (** [values.update(constants)] *)
  Definition update_dict {B} (d new : list (string * B)) : list (string * B) :=
    fold_left (fun d kv => set_key (fst kv) (snd kv) d) new d.
  (** encoding.py:321-345 (ConfigEncoder.decode); [zip] of nothing is empty. *)
  Definition decode (e : encoder) (x : list (list T)) : res (list (list (string * hval T))) :=
    bind (decode_cols 0 (transformers e) x) (fun values =>
    let values := update_dict values (map (fun c => (fst c, repeat (snd c) (length x))) (constants e)) in
    Ok (match values with
        | [] => []
        | _ => map (fun i => combine (map fst values) (pick i (map snd values))) (seq 0 (length x))
        end)).

  (** What the encoder uses of a hyperparameter: its domain or its choices. *)
  Inductive parameter : Type :=
  | PFloat (d : domain T) | PInteger (d : domain T) | PCategorical (choices : list (hval T)) | POther.

  (** encoding.py:392-406 *)
  Fixpoint default_transformers (custom : list (string * transformer)) (ps : list (string * parameter))
    : res (list (string * transformer)) :=
    match ps with
    | [] => Ok []
    | (name, p) :: ps' =>
        bind (match lookup name custom with
              | Some t => Ok t
              | None =>
                  match p with
                  | PFloat d | PInteger d => min_max d None
                  | PCategorical choices => cat_to_int choices
                  | POther => Err ValueError
                  end
              end) (fun t =>
        bind (default_transformers custom ps') (fun ts => Ok ((name, t) :: ts)))
    end.

  (** [any(set(a) & set(b))] of names; the empty name does not count. *)
  Definition overlap {B C} (a : list (string * B)) (b : list (string * C)) : bool :=
    existsb (fun k => negb (String.eqb k EmptyString) && has_key k b) (map fst a).

  (** encoding.py:348-408 (ConfigEncoder.default); constants or custom transformers that are not
      given are empty. *)
  Definition default_encoder (ps : list (string * parameter)) (cs : list (string * hval T))
    (custom : list (string * transformer)) : res encoder :=
    if overlap ps cs then Err ValueError
    else if overlap custom cs then Err ValueError
    else bind (default_transformers custom (sort_names ps)) (fun ts => Ok (config_encoder ts cs)).
End Encoding.
Arguments CatToInt {T}. Arguments CatToUnit {T}. Arguments MinMax {T}.
Arguments mkEnc {T}. Arguments transformers {T} e. Arguments constants {T} e.
Arguments PFloat {T}. Arguments PInteger {T}. Arguments PCategorical {T}. Arguments POther {T}.
