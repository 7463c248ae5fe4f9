(** C46: encoding configurations as tensors. *)
From Verif Require Import Enc_spec Dom_proofs Dom_cast_proofs Dom_props Enc_proofs Enc_round_proofs Enc_app_proofs.
From Coq Require Import Lqa Permutation.
Open Scope Q_scope.
Local Notation length := List.length.

(** ** Material for the examples *)
(** "lr": 1..3, logarithmic; "act": one of two strings; "n": integers 3..7; a constant. *)
Definition ex_heq (a b : value) : bool :=
  match a, b with
  | HN (Some x), HN (Some y) => Qeq_bool x y
  | HC x, HC y => py_eqb x y
  | _, _ => false
  end.
Definition ex_hashable (a : value) : bool :=
  match a with HC (VList _) | HC (VDict _) => false | _ => true end.
Definition ex_choices : list value := [HC (VStr "relu"); HC (VStr "tanh"); HC (VStr "gelu")].
Definition ex_ps : list (string * parameter (T := option Q)) :=
  [("lr"%string, PFloat (pdom ex_log)); ("act"%string, PCategorical ex_choices); ("n"%string, PInteger (pdom ex_int))].
Definition ex_specs : list (string * sparam) :=
  [("lr"%string, SNum ex_log); ("act"%string, SCat ex_choices); ("n"%string, SNum ex_int)].
Definition ex_cs : list (string * value) := [("seed"%string, HN (Some 42))].
Definition ex_conf : config :=
  [("n"%string, HN (Some 4)); ("act"%string, HC (VStr "tanh")); ("lr"%string, HN (Some 2)); ("extra"%string, HC VNone)].
Definition ex_conf' : config :=
  [("lr"%string, HN (Some 3)); ("act"%string, HC (VStr "gelu")); ("n"%string, HN (Some 7))].
Definition PA := Qar pln pexp.
Definition ex_e : encoder (T := option Q) :=
  match default_encoder PA ex_ps ex_cs [] with Ok e => e | Err _ => mkEnc [] [] end.
Definition ex_spread : list (string * transformer (T := option Q)) :=
  match cat_to_unit PA ex_choices with Ok t => [("act"%string, t)] | Err _ => [] end.
Definition ex_e' : encoder (T := option Q) :=
  match default_encoder PA ex_ps ex_cs ex_spread with Ok e => e | Err _ => mkEnc [] [] end.

Lemma ex_nodup : NoDup (map fst ex_ps) /\ NoDup (map fst ex_cs) /\
  (forall k, In k (map fst ex_cs) -> ~ In k (map fst ex_ps)).
Proof.
  split; [| split].
  - cbn. repeat (constructor; [cbn; intuition discriminate |]). constructor.
  - cbn. repeat (constructor; [cbn; intuition discriminate |]). constructor.
  - cbn. intros k [<- | []]. intuition discriminate.
Qed.
Lemma ex_specs_of : specs_of pln pexp ex_ps ex_specs.
Proof.
  repeat constructor; try reflexivity.
Qed.
Lemma ex_sound : forall name q, In (name, q) ex_specs -> sound pln q.
Proof.
  intros name q H. cbn in H. destruct H as [[= <- <-] | [[= <- <-] | [[= <- <-] | []]]].
  - split; [exact ex_log_good |]. split; [exact I |]. intros (_ & _ & _ & H). discriminate H.
  - cbn. lia.
  - split; [exact ex_int_good |]. split; [split; reflexivity |]. intros (_ & H & _). discriminate H.
Qed.
Lemma ex_complete : Forall (complete pln pexp ex_heq ex_hashable ex_specs) [ex_conf; ex_conf'].
Proof.
  repeat constructor; intros name q H; cbn in H; destruct H as [[= <- <-] | [[= <- <-] | [[= <- <-] | []]]].
  - exists (HN (Some 2)). split; [reflexivity |]. exists 2. split; [reflexivity | exact ex_log_legal].
  - exists (HC (VStr "tanh")). split; [reflexivity |]. split; [reflexivity |].
    exists (HC (VStr "tanh")). split; [cbn; auto | reflexivity].
  - exists (HN (Some 4)). split; [reflexivity |]. exists 4. split; [reflexivity | exact (ex_int_legal 4 ltac:(lia))].
  - exists (HN (Some 3)). split; [reflexivity |]. exists 3. split; [reflexivity |].
    split; [discriminate |]. split; [discriminate |]. split; discriminate.
  - exists (HC (VStr "gelu")). split; [reflexivity |]. split; [reflexivity |].
    exists (HC (VStr "gelu")). split; [cbn; auto | reflexivity].
  - exists (HN (Some 7)). split; [reflexivity |]. exists 7. split; [reflexivity | exact (ex_int_legal 7 ltac:(lia))].
Qed.
Lemma ex_spread_ok : spread_choices pln pexp ex_specs ex_spread.
Proof.
  intros name t [[= <- <-] | []]. exists ex_choices. split; [cbn; auto | reflexivity].
Qed.

(** ** Theorems *)
(** C46: what is encoded and decoded comes back: numbers equal, a choice equal to the value of
    the configuration, with the constants and nothing else.  [sound] excludes logarithmic
    ranges of integers and the logarithmic range from 1 to e. *)
Theorem encode_decode_configs : forall lnf expf (heq : value -> value -> bool) (hashable : value -> bool),
  ideal lnf expf -> forall ps specs cs custom e confs,
  NoDup (map fst ps) -> NoDup (map fst cs) -> (forall k, In k (map fst cs) -> ~ In k (map fst ps)) ->
  (ps <> [] \/ cs <> []) ->
  specs_of lnf expf ps specs -> (forall name q, In (name, q) specs -> sound lnf q) ->
  spread_choices lnf expf specs custom ->
  default_encoder (Qar lnf expf) ps cs custom = Ok e ->
  Forall (complete lnf expf heq hashable specs) confs ->
  exists x back, encode (Qar lnf expf) heq hashable e confs = Ok x /\ decode (Qar lnf expf) e x = Ok back /\
    Forall2 (fun conf b =>
      (forall name, In name (map fst b) <-> In name (map fst ps) \/ In name (map fst cs)) /\
      (forall name q, In (name, q) specs ->
         exists v r, lookup name conf = Some v /\ lookup name b = Some r /\ returned heq q v r) /\
      (forall name c, lookup name cs = Some c -> lookup name b = Some c)) confs back.
Proof. exact roundtrip_confs. Qed.
Example encode_decode_configs_ex :
  ideal pln pexp /\ NoDup (map fst ex_ps) /\ specs_of pln pexp ex_ps ex_specs /\
  (forall name q, In (name, q) ex_specs -> sound pln q) /\
  spread_choices pln pexp ex_specs [] /\ spread_choices pln pexp ex_specs ex_spread /\
  default_encoder PA ex_ps ex_cs [] = Ok ex_e /\ default_encoder PA ex_ps ex_cs ex_spread = Ok ex_e' /\
  Forall (complete pln pexp ex_heq ex_hashable ex_specs) [ex_conf; ex_conf'] /\
  bind (encode PA ex_heq ex_hashable ex_e [ex_conf; ex_conf']) (fun x => Ok (map (map (option_map Qred)) x))
    = Ok [[Some 1; Some (1 # 2); Some (1 # 4)]; [Some 2; Some 1; Some 1]] /\
  bind (encode PA ex_heq ex_hashable ex_e' [ex_conf; ex_conf']) (fun x => Ok (map (map (option_map Qred)) x))
    = Ok [[Some (1 # 2); Some (1 # 2); Some (1 # 4)]; [Some 1; Some 1; Some 1]].
Proof.
  split; [exact ideal_p |]. split; [apply ex_nodup |]. split; [exact ex_specs_of |].
  split; [exact ex_sound |]. split; [intros ? ? [] |]. split; [exact ex_spread_ok |].
  split; [reflexivity |]. split; [reflexivity |]. split; [exact ex_complete |]. split; reflexivity.
Qed.

(** C46: the tensor has a row per configuration and a column per parameter; a number is encoded
    in the unit interval, a choice as its position. *)
Theorem encoded_in_range : forall lnf expf (heq : value -> value -> bool) (hashable : value -> bool),
  ideal lnf expf -> forall ps specs cs custom e confs,
  NoDup (map fst ps) -> specs_of lnf expf ps specs -> (forall name q, In (name, q) specs -> sound lnf q) ->
  spread_choices lnf expf specs custom ->
  default_encoder (Qar lnf expf) ps cs custom = Ok e -> Forall (complete lnf expf heq hashable specs) confs ->
  exists x, encode (Qar lnf expf) heq hashable e confs = Ok x /\ length x = length confs /\
    Forall (fun row => length row = length ps) x /\
    forall i j row name y, nth_error x i = Some row -> nth_error row j = Some y ->
      nth_error (map fst (transformers e)) j = Some name ->
      exists q, In (name, q) specs /\ code (has_key name custom) q y.
Proof. exact codes. Qed.
Example encoded_in_range_ex :
  ideal pln pexp /\ default_encoder PA ex_ps ex_cs ex_spread = Ok ex_e' /\ spread_choices pln pexp ex_specs ex_spread /\
  code true (SCat ex_choices) (Some (1 # 2)).
Proof.
  split; [exact ideal_p |]. split; [reflexivity |]. split; [exact ex_spread_ok |].
  exists (1 # 2), 1%Z. split; [reflexivity |]. split; [cbn; lia | reflexivity].
Qed.

(** C46: each configuration is encoded independently of the others, in any arithmetic. *)
Theorem encode_independent : forall (T : Type) (A : arith T) heq hashable e a b r,
  encode A heq hashable e (a ++ b) = Ok r <->
  exists ra rb, encode A heq hashable e a = Ok ra /\ encode A heq hashable e b = Ok rb /\ r = ra ++ rb.
Proof. intros T A heq hashable. exact (encode_app_l A heq hashable). Qed.
Example encode_independent_ex : exists ra rb,
  encode PA ex_heq ex_hashable ex_e [ex_conf] = Ok ra /\ encode PA ex_heq ex_hashable ex_e [ex_conf'] = Ok rb /\
  encode PA ex_heq ex_hashable ex_e ([ex_conf] ++ [ex_conf']) = Ok (ra ++ rb).
Proof. eexists. eexists. split; [reflexivity |]. split; reflexivity. Qed.

(** C46: only the values of the encoded parameters matter. *)
Theorem encode_ignores_other_keys : forall (T : Type) (A : arith T) heq hashable e confs confs',
  Forall2 (fun c c' => forall name, In name (map fst (transformers e)) -> lookup name c = lookup name c') confs confs' ->
  encode A heq hashable e confs = encode A heq hashable e confs'.
Proof. intros T A heq hashable. exact (encode_agree_l A heq hashable). Qed.
Example encode_ignores_other_keys_ex :
  Forall2 (fun c c' => forall name, In name (map fst (transformers ex_e)) -> lookup name c = lookup name c')
    [ex_conf] [remove_key "extra" ex_conf] /\ remove_key "extra" ex_conf <> ex_conf.
Proof.
  split; [| discriminate]. constructor; [| constructor].
  intros name H. cbn in H. destruct H as [<- | [<- | [<- | []]]]; reflexivity.
Qed.

(** C46: each row is decoded independently of the others. *)
Theorem decode_independent : forall (T : Type) (A : arith T) e x x' b b',
  decode A e x = Ok b -> decode A e x' = Ok b' -> decode A e (x ++ x') = Ok (b ++ b').
Proof. intros T A. exact (decode_app_l A). Qed.
Example decode_independent_ex : exists b b',
  decode PA ex_e [[Some 1; Some (1 # 2); Some (1 # 4)]] = Ok b /\ decode PA ex_e [[Some 2; Some 1; Some 1]] = Ok b' /\
  lookup "act" (hd [] b) = Some (HC (VStr "tanh")) /\ lookup "act" (hd [] b') = Some (HC (VStr "gelu")) /\
  lookup "seed" (hd [] b') = Some (HN (Some 42)).
Proof. eexists. eexists. split; [reflexivity |]. split; [reflexivity |]. split; [reflexivity |]. split; reflexivity. Qed.

(** C46: the encoder, with the order of its columns, does not depend on the order in which the
    parameters are given; so the encoding does not either. *)
Theorem column_order_by_name : forall (T : Type) (A : arith T) ps ps' cs custom,
  NoDup (map fst ps) -> Permutation ps ps' ->
  default_encoder A ps cs custom = default_encoder A ps' cs custom.
Proof. intros T A. exact (default_order_l A). Qed.
Example column_order_by_name_ex : NoDup (map fst ex_ps) /\ Permutation ex_ps (rev ex_ps) /\ ex_ps <> rev ex_ps /\
  default_encoder PA (rev ex_ps) ex_cs [] = Ok ex_e.
Proof.
  split; [apply ex_nodup |]. split; [apply Permutation_rev |]. split; [discriminate | reflexivity].
Qed.

(** C46: one column for each parameter, in alphabetical order of the names. *)
Theorem columns_alphabetical : forall lnf expf ps cs custom e,
  default_encoder (Qar lnf expf) ps cs custom = Ok e -> NoDup (map fst ps) ->
  Permutation (map fst ps) (map fst (transformers e)) /\ alphabetical (map fst (transformers e)).
Proof. exact column_names_l. Qed.
Example columns_alphabetical_ex :
  default_encoder PA ex_ps ex_cs [] = Ok ex_e /\ map fst (transformers ex_e) = ["act"; "lr"; "n"]%string.
Proof. split; reflexivity. Qed.

(** C46: any tensor in the range of the codes decodes to configurations with legal values,
    whatever an acquisition function came up with. *)
Theorem decoded_configs_legal : forall lnf expf, ideal lnf expf -> forall ps specs cs custom e x,
  NoDup (map fst ps) -> NoDup (map fst cs) -> (forall k, In k (map fst cs) -> ~ In k (map fst ps)) ->
  (ps <> [] \/ cs <> []) ->
  specs_of lnf expf ps specs -> (forall name q, In (name, q) specs -> sound lnf q) ->
  spread_choices lnf expf specs custom ->
  default_encoder (Qar lnf expf) ps cs custom = Ok e ->
  (forall row j name q, In row x -> nth_error (map fst (transformers e)) j = Some name -> In (name, q) specs ->
     exists y, nth_error row j = Some y /\ decodable (has_key name custom) q y) ->
  exists back, decode (Qar lnf expf) e x = Ok back /\ length back = length x /\
    Forall (fun b =>
      (forall name, In name (map fst b) <-> In name (map fst ps) \/ In name (map fst cs)) /\
      (forall name q, In (name, q) specs -> exists r, lookup name b = Some r /\ sensible lnf expf q r) /\
      (forall name c, lookup name cs = Some c -> lookup name b = Some c)) back.
Proof. exact decode_legal_l. Qed.
Example decoded_configs_legal_ex :
  (forall row j name q, In row [[Some (7 # 5); Some (1 # 3); Some (1 # 3)]] ->
     nth_error (map fst (transformers ex_e)) j = Some name -> In (name, q) ex_specs ->
     exists y, nth_error row j = Some y /\ decodable (has_key name (@nil (string * nat))) q y) /\
  exists b, decode PA ex_e [[Some (7 # 5); Some (1 # 3); Some (1 # 3)]] = Ok [b] /\
            lookup "act" b = Some (HC (VStr "tanh")) /\ lookup "n" b = Some (HN (Some 4)).
Proof.
  split.
  - intros row j name q [<- | []] J H. cbn in H.
    destruct j as [| [| [| j]]]; cbn in J; try (destruct j; discriminate); injection J as <-;
      (destruct H as [H | [H | [H | []]]]; try discriminate H; injection H as <-);
      eexists; (split; [reflexivity |]); eexists; (split; [reflexivity |]); split; cbn; discriminate.
  - eexists. split; [reflexivity |]. split; reflexivity.
Qed.

(** C46: there is an encoder for all of these parameters, constants and transformers. *)
Theorem default_encoder_exists : forall lnf expf ps specs cs custom,
  NoDup (map fst ps) -> (forall k, In k (map fst cs) -> ~ In k (map fst ps)) ->
  specs_of lnf expf ps specs -> (forall name q, In (name, q) specs -> sound lnf q) ->
  spread_choices lnf expf specs custom -> exists e, default_encoder (Qar lnf expf) ps cs custom = Ok e.
Proof. exact default_exists_l. Qed.
Example default_encoder_exists_ex :
  specs_of pln pexp ex_ps ex_specs /\ spread_choices pln pexp ex_specs ex_spread /\ length ex_specs = 3%nat.
Proof. split; [exact ex_specs_of |]. split; [exact ex_spread_ok | reflexivity]. Qed.

(** C46: the domains that the encoder announces for its columns are those of the codes. *)
Theorem column_domains : forall lnf expf ps specs cs custom e,
  NoDup (map fst ps) -> specs_of lnf expf ps specs -> (forall name q, In (name, q) specs -> sound lnf q) ->
  spread_choices lnf expf specs custom -> default_encoder (Qar lnf expf) ps cs custom = Ok e ->
  forall j name d, nth_error (map fst (transformers e)) j = Some name -> nth_error (domains e) j = Some d ->
  exists q, In (name, q) specs /\ column_domain lnf expf (has_key name custom) q d.
Proof. exact column_domains_l. Qed.
Example column_domains_ex : default_encoder PA ex_ps ex_cs ex_spread = Ok ex_e' /\
  exists d, nth_error (domains ex_e') 0 = Some d /\ column_domain pln pexp true (SCat ex_choices) d.
Proof.
  split; [reflexivity |]. eexists. split; [reflexivity |]. split; [reflexivity |]. split; [reflexivity |].
  split; [reflexivity |]. split; reflexivity.
Qed.

(** ** Where it fails *)
(** C46, refuted for logarithmic ranges of integers: in 1..4 the configuration with 2 comes back
    with 3.  The conditions on log and exp hold of the real ones. *)
Definition kinked (lnf expf : Q -> Q) : Prop :=
  ideal lnf expf /\ lnf 1 == 0 /\ ~ lnf 4 == 1 /\ lnf 4 == 2 * lnf 2 /\
  (forall y, y == (2 # 3) * lnf 4 -> 5 # 2 < expf y /\ expf y < 7 # 2).
Theorem log_integer_configs_refuted : exists name s a b, good s /\ ~ a == b /\
  forall lnf expf heq hashable, legal lnf expf s a /\
  (kinked lnf expf -> exists d e x w, make lnf expf s false = Ok d /\
   default_encoder (Qar lnf expf) [(name, PInteger d)] [] [] = Ok e /\
   encode (Qar lnf expf) heq hashable e [[(name, HN (Some a))]] = Ok x /\
   decode (Qar lnf expf) e x = Ok [[(name, HN (Some w))]] /\ w == b).
Proof.
  exists "n"%string, (DInt 1 4 true None), 2, 3.
  assert (G : good (DInt 1 4 true None)).
  { split; [reflexivity |]. split; [reflexivity | discriminate]. }
  split; [exact G |]. split; [discriminate |]. intros lnf expf heq hashable.
  assert (L : legal lnf expf (DInt 1 4 true None) 2).
  { split; [discriminate |]. split; [discriminate |]. split; [intros _; exists 2%Z; reflexivity | discriminate]. }
  split; [exact L |].
  intros (ID & L1 & N4 & L4 & K).
  assert (GU : good (DFloat 0 1 false None)) by (split; [reflexivity | split; discriminate]).
  assert (M := make_total lnf expf _ G).
  set (d := dom lnf (DInt 1 4 true None) false) in *.
  assert (P2 : 0 < lnf 2).
  { destruct ID as (I1 & _). assert (H := I1 1 2 ltac:(reflexivity) ltac:(reflexivity)). lra. }
  destruct (cast_dom lnf expf ID (DFloat 0 1 false None) (DInt 1 4 true None) false false 2 GU G L) as (v & C1 & E).
  { right. intros [X _]. cbn in X. discriminate X. }
  { intros (_ & _ & _ & X). cbn [lo hi] in X. change (inject_Z 4) with 4 in X. apply N4. symmetry. exact X. }
  destruct (log_int_refuted_l lnf expf L1 P2 L4 K false d M) as (w3 & R & E3).
  rewrite (to_unit_l lnf expf (DInt 1 4 true None) false d 2 ID G M L) in R.
  unfold d in R. rewrite from_unit_dom in R by exact G.
  assert (R' : dec lnf expf (DInt 1 4 true None) (enc lnf (DInt 1 4 true None) 2) == 3).
  { rewrite <- E3. assert (Q : forall a b : Q, Some a = Some b -> a == b) by (intros a b [= ->]; reflexivity).
    apply Q. exact R. }
  assert (V : v == enc lnf (DInt 1 4 true None) 2).
  { apply (Qeq_trans _ _ _ E). unfold dec, Dom_proofs.cell, raw. cbn [integral card is_log width lo]. ring. }
  exists d, (mkEnc [("n"%string, MinMax d (unit_float_domain (Qar lnf expf)))] []), [[Some v]],
         (dec lnf expf (DInt 1 4 true None) v).
  split; [exact M |]. split; [reflexivity |]. split; [| split].
  - unfold encode. cbn [transformers mapM fst snd bind getitem lookup String.eqb Ascii.eqb Bool.eqb encode_one].
    change (unit_float_domain (Qar lnf expf)) with (dom lnf (DFloat 0 1 false None) false).
    unfold d. rewrite C1. reflexivity.
  - unfold decode. cbn [transformers decode_cols mapM nth_error bind decode_one].
    unfold d. rewrite from_unit_dom by exact G. reflexivity.
  - rewrite (dec_proper lnf expf (DInt 1 4 true None) _ _ G (ideal_ok lnf expf ID _ G) V). exact R'.
Qed.
(** An increasing function with a bend at 2, and its inverse. *)
Definition kln (x : Q) : Q := if Qle_bool x 1 then 1 - / x else if Qle_bool x 2 then x - 1 else x / 2.
Definition kexp (y : Q) : Q := if Qle_bool y 0 then / (1 - y) else if Qle_bool y 1 then y + 1 else y * 2.
Lemma kinked_k : kinked kln kexp.
Proof.
  assert (CB : forall x y, Qle_bool x y = true /\ x <= y \/ Qle_bool x y = false /\ y < x).
  { intros x y. destruct (Qle_bool x y) eqn:C.
    - left. split; auto. apply Qle_bool_iff. exact C.
    - right. split; auto. apply Qle_bool_false. exact C. }
  assert (HF : forall x, x / 2 == (1 # 2) * x) by (intros x; field).
  split; [| split; [reflexivity | split; [discriminate | split; [reflexivity |]]]].
  - unfold ideal, kln, kexp. split; [| split; [| split; [| split; [| split]]]].
    + intros x y P H. assert (A := HF x). assert (B := HF y).
      destruct (CB x 1) as [[-> X] | [-> X]]; destruct (CB y 1) as [[-> Y] | [-> Y]]; try lra.
      * assert (I := inv_lt x y P H). lra.
      * assert (I := inv_le x 1 P X). rewrite inv_1 in I. destruct (CB y 2) as [[-> Y2] | [-> Y2]]; lra.
      * destruct (CB x 2) as [[-> X2] | [-> X2]]; destruct (CB y 2) as [[-> Y2] | [-> Y2]]; lra.
    + intros x y H. assert (A := HF x). assert (B := HF y).
      destruct (CB x 1) as [[-> X] | [-> X]]; destruct (CB y 1) as [[-> Y] | [-> Y]]; try lra.
      * rewrite H. reflexivity.
      * destruct (CB x 2) as [[-> X2] | [-> X2]]; destruct (CB y 2) as [[-> Y2] | [-> Y2]]; lra.
    + intros x y H. destruct (CB x 0) as [[-> X] | [-> X]]; destruct (CB y 0) as [[-> Y] | [-> Y]]; try lra.
      * apply inv_le; lra.
      * assert (I := inv_le 1 (1 - x)). rewrite inv_1 in I. destruct (CB y 1) as [[-> Y2] | [-> Y2]]; lra.
      * destruct (CB x 1) as [[-> X2] | [-> X2]]; destruct (CB y 1) as [[-> Y2] | [-> Y2]]; lra.
    + intros x P. assert (A := HF x). destruct (CB x 1) as [[-> X] | [-> X]].
      * assert (I := inv_le x 1 P X). rewrite inv_1 in I.
        destruct (CB (1 - / x) 0) as [[-> Y] | [-> Y]]; [| lra]. field. split; lra.
      * destruct (CB x 2) as [[-> X2] | [-> X2]].
        -- destruct (CB (x - 1) 0) as [[-> Y] | [-> Y]]; [lra |]. destruct (CB (x - 1) 1) as [[-> Y1] | [-> Y1]]; lra.
        -- destruct (CB (x / 2) 0) as [[-> Y] | [-> Y]]; [lra |]. destruct (CB (x / 2) 1) as [[-> Y1] | [-> Y1]]; lra.
    + intros y. destruct (CB y 0) as [[-> Y] | [-> Y]].
      * assert (I := inv_le 1 (1 - y)). rewrite inv_1 in I.
        destruct (CB (/ (1 - y)) 1) as [[-> X] | [-> X]]; [field; lra | lra].
      * destruct (CB y 1) as [[-> Y1] | [-> Y1]].
        -- destruct (CB (y + 1) 1) as [[-> X] | [-> X]]; [lra |]. destruct (CB (y + 1) 2) as [[-> X2] | [-> X2]]; lra.
        -- assert (A := HF (y * 2)). destruct (CB (y * 2) 1) as [[-> X] | [-> X]]; [lra |]. destruct (CB (y * 2) 2) as [[-> X2] | [-> X2]]; lra.
    + intros y. destruct (CB y 0) as [[-> Y] | [-> Y]]; [apply inv_pos; lra |]. destruct (CB y 1) as [[-> Y1] | [-> Y1]]; lra.
  - intros y H. assert (E : kln 4 == 2) by reflexivity. rewrite E in H. unfold kexp.
    destruct (CB y 0) as [[-> Y] | [-> Y]]; [lra |]. destruct (CB y 1) as [[-> Y1] | [-> Y1]]; lra.
Qed.
Example log_integer_configs_ex : kinked kln kexp.
Proof. exact kinked_k. Qed.

(** C46, refuted for the logarithmic range from 1 to e: e is encoded as e^e, which is not in the
    unit interval, and decoded as another value. *)
Theorem log_unit_configs_outside : forall lnf expf heq hashable, ideal lnf expf -> lnf 1 == 0 ->
  exists name s a d e y w, good s /\ legal lnf expf s a /\ make lnf expf s false = Ok d /\
  default_encoder (Qar lnf expf) [(name, PFloat d)] [] [] = Ok e /\
  encode (Qar lnf expf) heq hashable e [[(name, HN (Some a))]] = Ok [[Some y]] /\ 1 < y /\
  decode (Qar lnf expf) e [[Some y]] = Ok [[(name, HN (Some w))]] /\ a < w.
Proof.
  intros lnf expf heq hashable ID L1. assert (J := ID). destruct J as (I1 & I2 & I3 & I4 & I5 & I6).
  set (e := expf 1).
  assert (Pe : 0 < e) by apply I6.
  assert (LE : lnf e == 1) by apply I5.
  assert (ST : forall a b, a < b -> expf a < expf b).
  { intros a b H. destruct (Qlt_le_dec (expf a) (expf b)) as [H' | H']; auto. exfalso.
    assert (X := I3 a b ltac:(lra)). assert (Y : expf a == expf b) by lra.
    assert (Z := I2 _ _ Y). assert (Z1 := I5 a). assert (Z2 := I5 b). lra. }
  assert (Ge : 1 < e).
  { destruct (Qlt_le_dec 1 e) as [H | H]; auto. exfalso.
    destruct (Qlt_le_dec e 1) as [H' | H'].
    - assert (X := I1 e 1 Pe H'). lra.
    - assert (X : e == 1) by lra. assert (Y := I2 _ _ X). lra. }
  assert (X1 : e < expf e) by (apply ST; exact Ge).
  assert (G' : good (DFloat 1 e true None)).
  { split; [exact Ge |]. split; [reflexivity | discriminate]. }
  assert (M := make_total lnf expf _ G').
  set (d := dom lnf (DFloat 1 e true None) false) in *.
  exists "lr"%string, (DFloat 1 e true None), e, d,
    (mkEnc [("lr"%string, MinMax d (unit_float_domain (Qar lnf expf)))] []), (expf e),
    (dec lnf expf (DFloat 1 e true None) (expf e)).
  split; [exact G' |]. split.
  { split; [cbn; lra |]. split; [apply Qle_refl |]. split; discriminate. }
  split; [exact M |]. split; [reflexivity |]. split; [| split; [lra | split]].
  - unfold encode. cbn [transformers mapM fst snd bind getitem lookup String.eqb Ascii.eqb Bool.eqb encode_one].
    assert (C : cast (Qar lnf expf) (unit_float_domain (Qar lnf expf)) d (Some e) = Some (expf e)).
    { change (unit_float_domain (Qar lnf expf)) with (dom lnf (DFloat 0 1 false None) false). unfold cast.
      assert (SD : same_domain (Qar lnf expf) (dom lnf (DFloat 0 1 false None) false) d = false).
      { unfold same_domain. cbn. reflexivity. }
      rewrite SD. cbn [dom d_unit].
      assert (LL : log_lift (Qar lnf expf) (dom lnf (DFloat 0 1 false None) false) d = true).
      { unfold log_lift, d. cbn [dom d_log d_card card logs is_log lo hi]. rewrite andb_true_r.
        unfold d_lower, d_upper. cbn [d_bounds b_lower b_upper].
        apply pair_eqb_true; [symmetry; exact L1 | symmetry; exact LE]. }
      cbn [dom] in LL. rewrite LL. reflexivity. }
    rewrite C. reflexivity.
  - unfold decode. cbn [transformers decode_cols mapM nth_error bind decode_one].
    unfold d. rewrite from_unit_dom by exact G'. reflexivity.
  - unfold dec, Dom_proofs.cell, raw. cbn [integral card is_log lo hi].
    fold e. apply ST. rewrite LE, L1. lra.
Qed.
Example log_unit_configs_outside_ex : ideal pln pexp /\ pln 1 == 0.
Proof. split; [exact ideal_p | reflexivity]. Qed.
(** In particular the claim is false. *)
Theorem log_unit_configs_refuted : exists lnf expf, ideal lnf expf /\ forall heq hashable,
  exists name s a d e y w, good s /\ legal lnf expf s a /\ make lnf expf s false = Ok d /\
  default_encoder (Qar lnf expf) [(name, PFloat d)] [] [] = Ok e /\
  encode (Qar lnf expf) heq hashable e [[(name, HN (Some a))]] = Ok [[Some y]] /\ 1 < y /\
  decode (Qar lnf expf) e [[Some y]] = Ok [[(name, HN (Some w))]] /\ a < w.
Proof. exists pln, pexp. split; [exact ideal_p |]. intros heq hashable. exact (log_unit_configs_outside pln pexp heq hashable ideal_p eq_refl). Qed.
Print Assumptions log_unit_configs_outside.

(** C46, refuted for a space with neither parameters nor constants: any number of (empty)
    configurations comes back as none. *)
Theorem empty_space_configs_refuted : exists confs : list config, confs <> [] /\
  forall lnf expf heq hashable, exists e x,
  default_encoder (Qar lnf expf) [] [] [] = Ok e /\ encode (Qar lnf expf) heq hashable e confs = Ok x /\
  length x = length confs /\ decode (Qar lnf expf) e x = Ok [].
Proof.
  exists [[]; []]. split; [discriminate |]. intros lnf expf heq hashable.
  exists (mkEnc [] []), [[]; []]. split; [reflexivity |]. split; [reflexivity |]. split; reflexivity.
Qed.

Print Assumptions encode_decode_configs.
Print Assumptions encoded_in_range.
Print Assumptions encode_independent.
Print Assumptions encode_ignores_other_keys.
Print Assumptions decode_independent.
Print Assumptions column_order_by_name.
Print Assumptions columns_alphabetical.
Print Assumptions decoded_configs_legal.
Print Assumptions column_domains.
Print Assumptions default_encoder_exists.
Print Assumptions log_integer_configs_refuted.
Print Assumptions log_unit_configs_refuted.
Print Assumptions empty_space_configs_refuted.
