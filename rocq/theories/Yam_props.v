(** Reading search spaces: numbers in scientific notation, deduced types, what is built, using the
    same dictionary again, which errors there are. *)
From Verif Require Import Py Yam_model Yam_spec Yam_round_proofs Yam_proofs.
Local Notation length := List.length.
Local Notation Space := Yam_model.Space.

(** The constructors as records of what they were given, for the examples. *)
Definition rec_build (k : kind) (d : dict) : res (option kind * pyval) := Ok (Some k, VDict d).
Definition rec_const (v : pyval) : res (option kind * pyval) := Ok (None, v).
(** 3.3e-5, 1e-5 and 1e-1 as doubles (exponents of two, the unit is 2^-1074) *)
Definition f_33e6 : fl := Eval lazy in FZ (4869940435459322 * 2 ^ 1007).
Definition f_1e5 : fl := Eval lazy in FZ (5902958103587057 * 2 ^ 1005).
Definition f_1e1 : fl := Eval lazy in FZ (7205759403792794 * 2 ^ 1018).
Definition sci_33e6 : sci := mkSci NoSign [3] (Some [3]) false Minus [5].
Definition sci_1e5 : sci := mkSci NoSign [1] None false Minus [5].
Definition sci_1e1 : sci := mkSci NoSign [1] None true Minus [1].
Definition sci_1e2 : sci := mkSci NoSign [1] None false NoSign [2].
Ltac ok_sci := split; [cbn; repeat constructor; lia|split; [cbn; repeat constructor; lia|split; [cbn; repeat constructor; lia|split; cbn; discriminate]]].
Ltac ok_simple := repeat split; cbn; discriminate.
Ltac ok_written := exists 0, []; split; [left; exists 0; reflexivity|reflexivity].

(** ** Numbers (C58) *)
(** The double nearest to a number (half to even) is unique, so the statements below determine it. *)
Theorem nearest_double_unique : forall n d f g, (0 < d)%Z -> nearest n d f -> nearest n d g -> f = g.
Proof. exact nearest_unique. Qed.
Example nearest_double_unique_ex : nearest 1 2 (FZ (2 ^ 1073)) /\ (0 < 2)%Z.
Proof.
  split; [|lia]. change (1%Z) with (fst (1, 2)%Z). pose proof (round64_nearest 1 2 ltac:(lia) ltac:(lia)) as N.
  assert (E : round64 1 2 = FZ (2 ^ 1073)) by (lazy; reflexivity). rewrite E in N. exact N.
Qed.

(** Constants: a text that is a number in scientific notation (as in the documentation: digits, maybe a
    point with digits on both sides, maybe minus signs, blanks around it) becomes the nearest double;
    every other value is passed on unchanged. *)
Theorem const_read_right : forall P (build : kind -> dict -> res P) build_const v, scalar v -> ~ huge v ->
  exists w, understood v w /\ parameter build build_const v = (v, build_const w).
Proof. intros P build build_const. exact (const_read build build_const). Qed.
Example const_read_right_ex :
  understood (VStr " 3.3e-5 ") (VFloat f_33e6) /\ parameter rec_build rec_const (VStr " 3.3e-5 ") = (VStr " 3.3e-5 ", Ok (None, VFloat f_33e6)) /\
  parameter rec_build rec_const (VStr "e-5") = (VStr "e-5", Ok (None, VStr "e-5")) /\
  parameter rec_build rec_const (VStr "1.5") = (VStr "1.5", Ok (None, VStr "1.5")).
Proof.
  assert (P : parameter rec_build rec_const (VStr " 3.3e-5 ") = (VStr " 3.3e-5 ", Ok (None, VFloat f_33e6))) by (lazy; reflexivity).
  split; [|split; [exact P|split; lazy; reflexivity]].
  destruct (const_read_right _ rec_build rec_const (VStr " 3.3e-5 ") Logic.I (fun X => X)) as (w & U & E). rewrite P in E. injection E as <-. exact U.
Qed.

(** Categorical parameters (type given, or no type and not both bounds): every choice and the default
    are read like constants; a default that is one of the choices still is; all other entries reach
    the constructor as written. *)
Theorem categorical_read_right : forall P (build : kind -> dict -> res P) build_const d l,
  (type_is ["cat"; "categorical"] d \/ lookup "type" d = None /\ (lookup "lower" d = None \/ lookup "upper" d = None)) ->
  lookup "choices" d = Some (VList l) -> Forall (fun v => scalar v /\ ~ huge v) l -> (forall v, lookup "default" d = Some v -> scalar v /\ ~ huge v) ->
  exists d' l', parameter build build_const (VDict d) = (VDict d', build KCat d') /\ lookup "choices" d' = Some (VList l') /\ Forall2 understood l l' /\
    entry_rel understood "default" d d' /\ lookup "type" d' = None /\ agree ["choices"; "default"; "type"] d d' /\
    (forall v w, lookup "default" d = Some v -> lookup "default" d' = Some w -> existsb (py_eqb v) l = true -> existsb (py_eqb w) l' = true).
Proof. intros P build build_const. exact (cat_read build build_const). Qed.
Example categorical_read_right_ex :
  let d := [("choices", VList [VStr "adam"; VStr "1e-5"; VInt 3]); ("type", VStr "Cat"); ("default", VStr "1e-5 "); ("is_fidelity", VBool false)] in
  type_is ["cat"; "categorical"] d /\
  parameter rec_build rec_const (VDict d) =
    (let d' := [("choices", VList [VStr "adam"; VFloat f_1e5; VInt 3]); ("default", VFloat f_1e5); ("is_fidelity", VBool false)] in (VDict d', Ok (Some KCat, VDict d'))).
Proof.
  split; [|lazy; reflexivity]. exists "Cat", "cat". split; [reflexivity|]. split; [left; reflexivity|]. cbn [spells]. split; [|split; [left; reflexivity|split; [left; reflexivity|exact Logic.I]]].
  right. exists 2%nat. split; [lia|split; reflexivity].
Qed.

(** Float parameters (type given; or no type and both bounds floats or one of them a text in the form of
    the documentation): the bounds and the default become the nearest doubles, from integers, floats and
    texts in any scientific notation; all other entries reach the constructor as written. *)
Theorem float_read_right : forall P (build : kind -> dict -> res P) build_const d l u,
  lookup "lower" d = Some l -> lookup "upper" d = Some u -> numeral l -> numeral u ->
  (forall v, lookup "default" d = Some v -> numeral v) ->
  (type_is ["float"] d \/ lookup "type" d = None /\ (is_floatv l && is_floatv u = true \/ e_text l \/ e_text u)) ->
  exists d' f g, parameter build build_const (VDict d) = (VDict d', build KFloat d') /\
    lookup "lower" d' = Some (VFloat f) /\ lookup "upper" d' = Some (VFloat g) /\ as_float l f /\ as_float u g /\
    entry_rel float_of "default" d d' /\ lookup "type" d' = None /\ agree ["lower"; "upper"; "default"; "type"] d d'.
Proof. intros P build build_const. exact (float_read build build_const). Qed.
Example float_read_right_ex :
  let d := [("lower", VStr "1e-5"); ("upper", VInt 1); ("log", VBool true); ("default", VStr "+1E-1")] in
  numeral (VStr "1e-5") /\ numeral (VStr "+1E-1") /\ e_text (VStr "1e-5") /\
  parameter rec_build rec_const (VDict d) =
    (let d' := [("lower", VFloat f_1e5); ("upper", VFloat (fl_of_Z 1)); ("log", VBool true); ("default", VFloat f_1e1)] in (VDict d', Ok (Some KFloat, VDict d'))).
Proof.
  split; [exists sci_1e5; split; [ok_sci|ok_written]|]. split; [exists (mkSci Plus [1] None true Minus [1]); split; [ok_sci|ok_written]|].
  split; [exists "1e-5", sci_1e5; split; [reflexivity|split; [ok_sci|split; [ok_simple|ok_written]]]|]. lazy; reflexivity.
Qed.

(** Integer parameters (type given, or no type and both bounds integers): bounds and default that say an
    integer of up to 2^53, in digits or in scientific notation, become exactly that integer. *)
Theorem int_read_right : forall P (build : kind -> dict -> res P) build_const d l u n m,
  lookup "lower" d = Some l -> lookup "upper" d = Some u -> says l n -> says u m ->
  (forall v, lookup "default" d = Some v -> exists k, says v k) ->
  (type_is ["int"; "integer"] d \/ lookup "type" d = None /\ is_intv l && is_intv u = true) ->
  exists d', parameter build build_const (VDict d) = (VDict d', build KInt d') /\
    lookup "lower" d' = Some (VInt n) /\ lookup "upper" d' = Some (VInt m) /\
    entry_rel int_of "default" d d' /\ lookup "type" d' = None /\ agree ["lower"; "upper"; "default"; "type"] d d'.
Proof. intros P build build_const. exact (int_read build build_const). Qed.
Example int_read_right_ex :
  let d := [("type", VStr "int"); ("lower", VInt 1); ("upper", VStr "1e2"); ("is_fidelity", VBool true)] in
  says (VInt 1) 1 /\ says (VStr "1e2") 100 /\ type_is ["int"; "integer"] d /\
  parameter rec_build rec_const (VDict d) =
    (let d' := [("lower", VInt 1); ("upper", VInt 100); ("is_fidelity", VBool true)] in (VDict d', Ok (Some KInt, VDict d'))).
Proof.
  split; [constructor; lia|]. split; [apply (sy_text "1e2" sci_1e2); [ok_sci|ok_simple|ok_written|reflexivity|lia]|].
  split; [exists "int", "int"; split; [reflexivity|split; [left; reflexivity|cbn; repeat split; left; reflexivity]]|]. lazy; reflexivity.
Qed.

(** Without a type, with two bounds, the parameter is an integer parameter iff both bounds are integers
    (truth values are integers in Python). *)
Theorem deduced_int_iff : forall d l u, lookup "type" d = None -> lookup "lower" d = Some l -> lookup "upper" d = Some u ->
  snd (deduce_type (VDict d)) = Ok "int" <-> is_intv l = true /\ is_intv u = true.
Proof. exact deduce_int. Qed.
Example deduced_int_iff_ex :
  snd (deduce_type (VDict [("lower", VInt 1); ("upper", VInt 9)])) = Ok "int" /\
  snd (deduce_type (VDict [("lower", VInt 1); ("upper", VStr "1e2")])) = Ok "float" /\
  snd (deduce_type (VDict [("lower", VInt 1); ("upper", VFloat (fl_of_Z 2))])) = Err TypeError.
Proof. repeat split; lazy; reflexivity. Qed.

(** Whatever the details are: integer constructors get integers, float constructors floats, categorical
    constructors a list of choices and a default that is a text or a number. *)
Theorem constructors_get_right_types : forall v v' k d, parameter (fun k d => Ok (Some (k, d))) (fun _ => Ok None) v = (v', Ok (Some (k, d))) ->
  match k with
  | KInt => (exists l, lookup "lower" d = Some l /\ is_intv l = true) /\ (exists u, lookup "upper" d = Some u /\ is_intv u = true) /\
      (forall w, lookup "default" d = Some w -> is_intv w = true)
  | KFloat => (exists l, lookup "lower" d = Some (VFloat l)) /\ (exists u, lookup "upper" d = Some (VFloat u)) /\
      (forall w, lookup "default" d = Some w -> exists f, w = VFloat f)
  | KCat => (exists l, lookup "choices" d = Some (VList l)) /\ (forall w, lookup "default" d = Some w -> scalar w)
  end.
Proof. exact right_types. Qed.
Example constructors_get_right_types_ex :
  parameter (fun k d => Ok (Some (k, d))) (fun _ => Ok None) (VDict [("type", VStr "INTEGER"); ("lower", VStr "1e1"); ("upper", VFloat (fl_of_Z 20)); ("default", VStr "15.0")]) =
  (let d := [("lower", VInt 10); ("upper", VInt 20); ("default", VInt 15)] in (VDict d, Ok (Some (KInt, d)))).
Proof. lazy; reflexivity. Qed.

(** An integer parameter is never built from something else by truncation: the bounds and the default it
    gets are the integers written, or equal to the double that was written. *)
Theorem integers_not_truncated : forall d v' d',
  parameter (fun k d => Ok (Some (k, d))) (fun _ => Ok None) (VDict d) = (v', Ok (Some (KInt, d'))) ->
  forall k v, In k ["lower"; "upper"; "default"] -> lookup k d = Some v -> exists w, lookup k d' = Some w /\ kept_int v w.
Proof. exact parameter_int_kept. Qed.
Example integers_not_truncated_ex :
  parameter (fun k d => Ok (Some (k, d))) (fun _ => Ok None) (VDict [("type", VStr "int"); ("lower", VStr "1.5e1"); ("upper", VInt 20)]) =
  (let d := [("lower", VInt 15); ("upper", VInt 20)] in (VDict d, Ok (Some (KInt, d)))) /\
  snd (parameter (fun k d => Ok (Some (k, d))) (fun _ => Ok None) (VDict [("type", VStr "int"); ("lower", VStr "1.5e0"); ("upper", VInt 20)])) = Err TypeError.
Proof. split; lazy; reflexivity. Qed.

(** A space is read parameter by parameter: the names and their order are kept, each parameter is what it
    is when it is the only one, and the space is readable iff each of them is.  A space inside
    [pipeline_space] and the same space at the top, or in a file, are the same. *)
Theorem space_by_parameters : forall P (build : kind -> dict -> res P) build_const d ps,
  let space c := snd (space_from_dict build build_const c) in
  (space (wrapped d) = Space ps <-> Forall2 (fun kv kp => fst kp = fst kv /\ space (wrapped [kv]) = Space [kp]) d ps) /\
  (top_space d -> space d = Space ps <-> space (wrapped d) = Space ps) /\
  (forall c, space_from_file build build_const (Ok (VDict c)) = space c) /\
  (forall k v p, space (wrapped [(k, v)]) = Space [(k, p)] <-> snd (parameter build build_const v) = Ok p).
Proof.
  intros P build build_const d ps space. unfold space.
  assert (F : Forall2 (fun kv kp => snd (space_from_dict build build_const (wrapped [kv])) = Space [kp]) d ps <->
    Forall2 (fun kv kp => fst kp = fst kv /\ snd (space_from_dict build build_const (wrapped [kv])) = Space [kp]) d ps).
  { split; induction 1 as [|(k, v) kp l l' H ? IH]; constructor; try assumption; [split; [eapply part_name; exact H|exact H]|apply H]. }
  split; [rewrite parts_wrapped; exact F|]. split; [intros H; rewrite (parts_plain _ _ _ _ H), parts_wrapped; reflexivity|].
  split; [apply file_like_dict|apply part_param].
Qed.
Example space_by_parameters_ex :
  let d := [("lr", VDict [("lower", VStr "1e-5"); ("upper", VStr "1E-1")]); ("optimizer", VStr "adam")] in
  top_space d /\ snd (space_from_dict rec_build rec_const d) =
    Space [("lr", (Some KFloat, VDict [("lower", VFloat f_1e5); ("upper", VFloat f_1e1)])); ("optimizer", (None, VStr "adam"))].
Proof. split; [intros v H; discriminate H|]. lazy; reflexivity. Qed.

(** Numbers in scientific notation that Python reads as floats, but that stay texts: with plus signs,
    without digits before or after the point. *)
Theorem plus_sign_stays_text_refuted : exists s c, valid c /\ written s c /\ float_of_string s = Ok (fl_of_Z 1000) /\
  forall P (build : kind -> dict -> res P) build_const, parameter build build_const (VStr s) = (VStr s, build_const (VStr s)).
Proof. exists "1e+3", (mkSci NoSign [1] None false Plus [3]). split; [ok_sci|]. split; [ok_written|]. split; [lazy; reflexivity|]. intros. lazy. reflexivity. Qed.
Theorem bare_point_stays_text_refuted : exists s c, valid c /\ written s c /\ float_of_string s = Ok (fl_of_Z 500) /\
  forall P (build : kind -> dict -> res P) build_const, parameter build build_const (VStr s) = (VStr s, build_const (VStr s)).
Proof. exists ".5e3", (mkSci NoSign [] (Some [5]) false NoSign [3]). split; [ok_sci|]. split; [ok_written|]. split; [lazy; reflexivity|]. intros. lazy. reflexivity. Qed.
(** Blanks are removed before the form is checked, not before the conversion: a text with a blank inside
    has the form but stays a text (as a bound it is a TypeError). *)
Theorem inner_blank_stays_text_refuted : exists s c, valid c /\ simple c /\ filter (fun a => negb (Ascii.eqb a " ")) (list_ascii_of_string s) = text c /\
  (forall P (build : kind -> dict -> res P) build_const, parameter build build_const (VStr s) = (VStr s, build_const (VStr s))) /\
  (forall P (build : kind -> dict -> res P) build_const, snd (parameter build build_const (VDict [("lower", VStr s); ("upper", VInt 2000)])) = Err TypeError).
Proof. exists "1 e3", (mkSci NoSign [1] None false NoSign [3]). split; [ok_sci|]. split; [ok_simple|]. split; [reflexivity|]. split; intros; lazy; reflexivity. Qed.
(** Integers in scientific notation above 2^53 go through a double: 1e23 becomes 99999999999999991611392. *)
Theorem int_bound_inexact_refuted : exists s c n, valid c /\ simple c /\ written s c /\ sci_value c = (n, 1%Z) /\
  exists m, m <> n /\ forall P (build : kind -> dict -> res P) build_const,
    parameter build build_const (VDict [("type", VStr "int"); ("lower", VInt 0); ("upper", VStr s)]) =
    (let d := [("lower", VInt 0); ("upper", VInt m)] in (VDict d, build KInt d)).
Proof.
  exists "1e23", (mkSci NoSign [1] None false NoSign [2; 3]), (10 ^ 23)%Z. split; [ok_sci|]. split; [ok_simple|]. split; [ok_written|]. split; [lazy; reflexivity|].
  exists 99999999999999991611392%Z. split; [discriminate|]. intros. lazy. reflexivity.
Qed.
(** Two numbers as bounds, but an integer and a float: no type is deduced. *)
Theorem mixed_bounds_refuted : exists l u, numeral l /\ numeral u /\
  forall P (build : kind -> dict -> res P) build_const, snd (space_from_dict build build_const [("x", VDict [("lower", l); ("upper", u)])]) = Wrapped TypeError.
Proof.
  exists (VInt 0), (VFloat (fl_of_Z 1)). split; [cbn [numeral huge]; pose proof (pow_pos 970 ltac:(lia)); set (b := (2 ^ 970)%Z) in *; clearbody b; lia|]. split; [exact Logic.I|].
  intros. lazy. reflexivity.
Qed.

(** ** Using a dictionary again (C99) *)
(** Reading changes the dictionary it is given (types are taken out, numbers converted), but after a
    success the changed dictionary gives the same space, and does not change any more. *)
Theorem same_space_again : forall P (build : kind -> dict -> res P) build_const d v ps,
  (forall d p, build KCat d = Ok p -> has_key "lower" d && has_key "upper" d = false) ->
  space_from_dict build build_const d = (v, Space ps) ->
  exists d', v = VDict d' /\ map fst d' = map fst d /\ space_from_dict build build_const d' = (v, Space ps).
Proof. intros P build build_const. exact (again build build_const). Qed.
(** The constructor of categorical parameters has no such arguments: TypeError. *)
Definition cat_build (k : kind) (d : dict) : res (option kind * pyval) :=
  match k with KCat => if has_key "lower" d || has_key "upper" d then Err TypeError else rec_build k d | _ => rec_build k d end.
Example same_space_again_ex :
  (forall d p, cat_build KCat d = Ok p -> has_key "lower" d && has_key "upper" d = false) /\
  let d := [("x", VDict [("type", VStr "float"); ("lower", VInt 0); ("upper", VInt 1)])] in
  let d' := [("x", VDict [("lower", VFloat (fl_of_Z 0)); ("upper", VFloat (fl_of_Z 1))])] in
  space_from_dict cat_build rec_const d = (VDict d', Space [("x", (Some KFloat, VDict [("lower", VFloat (fl_of_Z 0)); ("upper", VFloat (fl_of_Z 1))]))]) /\ d' <> d.
Proof.
  split; [intros d p; cbn; destruct (has_key "lower" d); [discriminate|reflexivity]|]. split; [lazy; reflexivity|discriminate].
Qed.
(** After an error this is not so: a misspelled type is an error the first time; the second time the type
    is gone, and the parameter is read as something else. *)
Theorem retry_after_error_refuted : exists d d' ps,
  space_from_dict rec_build rec_const d = (VDict d', Wrapped TypeError) /\ space_from_dict rec_build rec_const d' = (VDict d', Space ps).
Proof.
  exists [("x", VDict [("type", VStr "flot"); ("lower", VInt 0); ("upper", VInt 1)])], [("x", VDict [("lower", VInt 0); ("upper", VInt 1)])].
  eexists. split; lazy; reflexivity.
Qed.

(** ** Errors (C100) *)
(** Whatever is wrong with a space, the user sees a SearchSpaceFromYamlFileError, but for three other
    errors: OverflowError, AssertionError, AttributeError (the last only if [pipeline_space] is not a
    dictionary). *)
Theorem errors_are_space_errors_partial : forall P (build : kind -> dict -> res P) build_const d v e,
  (forall k d e, build k d = Err e -> caught e) -> (forall v e, build_const v = Err e -> caught e) ->
  space_from_dict build build_const d = (v, Raw e) ->
  e = OverflowError \/ e = AssertionError \/ (e = AttributeError /\ exists x, d = [("pipeline_space", x)] /\ forall p, x <> VDict p).
Proof. intros P build build_const. exact (raw_errors build build_const). Qed.
Example errors_are_space_errors_partial_ex :
  (forall k d e, cat_build k d = Err e -> caught e) /\ (forall v e, rec_const v = Err e -> caught e) /\
  snd (space_from_dict cat_build rec_const [("x", VDict [("choices", VList [VStr "a"; VNone])])]) = Wrapped TypeError /\
  snd (space_from_dict cat_build rec_const [("x", VDict [("lower", VInt 0)])]) = Wrapped KeyError.
Proof.
  split; [intros [| |] d e; cbn; try discriminate; destruct (has_key "lower" d || has_key "upper" d); [intros [= <-]; right; left; reflexivity|discriminate]|].
  split; [discriminate|]. split; lazy; reflexivity.
Qed.
(** The three do occur. *)
Theorem infinite_int_bound_refuted : exists d, forall P (build : kind -> dict -> res P) build_const, snd (space_from_dict build build_const d) = Raw OverflowError.
Proof. exists [("x", VDict [("type", VStr "int"); ("lower", VInt 0); ("upper", VStr "1e400")])]. intros. lazy. reflexivity. Qed.
Theorem huge_constant_refuted : exists z, forall P (build : kind -> dict -> res P) build_const, snd (space_from_dict build build_const [("x", VInt z)]) = Raw OverflowError.
Proof. exists (2 ^ 1024)%Z. intros. lazy. reflexivity. Qed.
Theorem type_not_text_refuted : exists d, forall P (build : kind -> dict -> res P) build_const, snd (space_from_dict build build_const d) = Raw AssertionError.
Proof. exists [("x", VDict [("type", VInt 3); ("lower", VInt 0); ("upper", VInt 1)])]. intros. lazy. reflexivity. Qed.
Theorem empty_space_refuted : exists d, forall P (build : kind -> dict -> res P) build_const,
  snd (space_from_dict build build_const d) = Raw AttributeError /\ space_from_file build build_const (Ok (VDict d)) = Raw AttributeError.
Proof. exists [("pipeline_space", VNone)]. intros. split; lazy; reflexivity. Qed.

Print Assumptions nearest_double_unique.
Print Assumptions const_read_right.
Print Assumptions categorical_read_right.
Print Assumptions float_read_right.
Print Assumptions int_read_right.
Print Assumptions deduced_int_iff.
Print Assumptions constructors_get_right_types.
Print Assumptions integers_not_truncated.
Print Assumptions space_by_parameters.
Print Assumptions plus_sign_stays_text_refuted.
Print Assumptions bare_point_stays_text_refuted.
Print Assumptions inner_blank_stays_text_refuted.
Print Assumptions int_bound_inexact_refuted.
Print Assumptions mixed_bounds_refuted.
Print Assumptions same_space_again.
Print Assumptions retry_after_error_refuted.
Print Assumptions errors_are_space_errors_partial.
Print Assumptions infinite_int_bound_refuted.
Print Assumptions huge_constant_refuted.
Print Assumptions type_not_text_refuted.
Print Assumptions empty_space_refuted.
