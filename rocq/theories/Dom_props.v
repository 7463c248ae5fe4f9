(** C43 - C45, C71: numeric domains. *)
From Verif Require Import Dom_spec Dom_proofs Dom_cast_proofs.
From Coq Require Import Lqa.
Open Scope Q_scope.

(** ** Material for the examples *)
(** Integers 3..7; numbers 1..3 on a logarithmic scale; numbers 0..1 in five bins. *)
Definition ex_int : desc := DInt 3 7 false None.
Definition ex_log : desc := DFloat 1 3 true None.
Definition ex_bin : desc := DFloat 0 1 false (Some 5%Z).
Lemma ex_int_good : good ex_int.
Proof. split; [reflexivity |]. split; discriminate. Qed.
Lemma ex_log_good : good ex_log.
Proof. split; [reflexivity |]. split; [reflexivity | discriminate]. Qed.
Lemma ex_bin_good : good ex_bin.
Proof. split; [reflexivity |]. split; [discriminate |]. intros b [= <-]. lia. Qed.
Definition pdom (s : desc) : domain (option Q) := dom pln s false.
Lemma pdom_made : forall s, good s -> make pln pexp s false = Ok (pdom s).
Proof. exact (make_total pln pexp). Qed.
Lemma ex_int_legal : forall z, (3 <= z <= 7)%Z -> legal pln pexp ex_int (inject_Z z).
Proof.
  intros z H. split; [cbn; rewrite <- Zle_Qle; lia |]. split; [cbn; rewrite <- Zle_Qle; lia |].
  split; [intros _; exists z; reflexivity | discriminate].
Qed.
Lemma ex_log_legal : legal pln pexp ex_log 2.
Proof. split; [discriminate |]. split; [discriminate |]. split; discriminate. Qed.
Lemma ex_bin_legal : legal pln pexp ex_bin (3 # 4).
Proof.
  split; [discriminate |]. split; [discriminate |]. split; [discriminate |].
  intros b [= <-]. exists 3%Z. split; [lia |]. reflexivity.
Qed.

(** C43: a number of the unit interval is decoded to a legal value: within the bounds, an integer
    for ranges of integers, on a bin for binned ranges. *)
Theorem decoded_values_legal : forall lnf expf s cat d x,
  good s -> log_ok lnf expf s -> make lnf expf s cat = Ok d -> 0 <= x -> x <= 1 ->
  exists v, from_unit (Qar lnf expf) d (Some x) = Some v /\ legal lnf expf s v.
Proof. exact decoded_legal_l. Qed.
Example decoded_values_legal_ex :
  good ex_log /\ log_ok pln pexp ex_log /\ make pln pexp ex_log false = Ok (pdom ex_log) /\
  from_unit (Qar pln pexp) (pdom ex_log) (Some (1 # 2)) = Some (4 # 2) /\
  from_unit (Qar pln pexp) (pdom ex_int) (Some (1 # 2)) = Some 5 /\
  from_unit (Qar pln pexp) (pdom ex_bin) (Some (1 # 2)) = Some (2 # 4).
Proof.
  split; [exact ex_log_good |]. split; [exact (ideal_ok _ _ ideal_p _ ex_log_good) |].
  split; [exact (pdom_made _ ex_log_good) |]. repeat split.
Qed.

(** C43: zero and one are decoded to the bounds. *)
Theorem decoded_ends : forall lnf expf s cat d,
  good s -> log_ok lnf expf s -> make lnf expf s cat = Ok d ->
  gives (from_unit (Qar lnf expf) d (Some 0)) (lo s) /\ gives (from_unit (Qar lnf expf) d (Some 1)) (hi s).
Proof. exact decoded_ends_l. Qed.
Example decoded_ends_ex :
  good ex_log /\ log_ok pln pexp ex_log /\ make pln pexp ex_log false = Ok (pdom ex_log) /\
  gives (from_unit (Qar pln pexp) (pdom ex_log) (Some 1)) 3 /\
  gives (from_unit (Qar pln pexp) (pdom ex_int) (Some 0)) 3.
Proof.
  split; [exact ex_log_good |]. split; [exact (ideal_ok _ _ ideal_p _ ex_log_good) |].
  split; [exact (pdom_made _ ex_log_good) |]. split; eexists; split; reflexivity.
Qed.

(** C43: decoding keeps the order. *)
Theorem decoded_monotone : forall lnf expf s cat d x y v w,
  good s -> log_ok lnf expf s -> make lnf expf s cat = Ok d -> x <= y ->
  from_unit (Qar lnf expf) d (Some x) = Some v -> from_unit (Qar lnf expf) d (Some y) = Some w -> v <= w.
Proof. exact decoded_monotone_l. Qed.
Example decoded_monotone_ex :
  good ex_int /\ log_ok pln pexp ex_int /\ make pln pexp ex_int false = Ok (pdom ex_int) /\
  from_unit (Qar pln pexp) (pdom ex_int) (Some (1 # 4)) = Some 4 /\
  from_unit (Qar pln pexp) (pdom ex_int) (Some (7 # 10)) = Some 6.
Proof.
  split; [exact ex_int_good |]. split; [exact (ideal_ok _ _ ideal_p _ ex_int_good) |].
  split; [exact (pdom_made _ ex_int_good) |]. repeat split.
Qed.

(** C43: each of the n integers of a linear range is decoded from the k-th part of length 1/n. *)
Theorem decoded_integer_share : forall lnf expf l u cat d k x,
  (l < u)%Z -> make lnf expf (DInt l u false None) cat = Ok d -> (l <= k <= u)%Z ->
  inject_Z (k - l) / inject_Z (u - l + 1) <= x -> x < inject_Z (k - l + 1) / inject_Z (u - l + 1) ->
  gives (from_unit (Qar lnf expf) d (Some x)) (inject_Z k).
Proof. exact decoded_share_l. Qed.
Example decoded_integer_share_ex :
  make pln pexp (DInt 3 7 false None) false = Ok (pdom ex_int) /\
  inject_Z (4 - 3) / inject_Z (7 - 3 + 1) <= 39 # 100 /\ 39 # 100 < inject_Z (4 - 3 + 1) / inject_Z (7 - 3 + 1) /\
  from_unit (Qar pln pexp) (pdom ex_int) (Some (39 # 100)) = Some 4.
Proof. split; [reflexivity |]. split; [discriminate |]. split; reflexivity. Qed.

(** C43, refuted for domains with one value, such as those of categoricals with one choice:
    every number is decoded to NaN (then cast to int64). *)
Theorem decode_single_value_refuted : exists n, forall lnf expf cat, exists d,
  indices (Qar lnf expf) n cat = Ok d /\ d_lower (Qar lnf expf) d = Some 0 /\ d_upper (Qar lnf expf) d = Some 0 /\
  forall x, from_unit (Qar lnf expf) d (Some x) = None.
Proof.
  exists 1%Z. intros lnf expf cat. eexists. split; [reflexivity |]. split; [reflexivity |]. split; [reflexivity |].
  intros x. unfold from_unit. cbn [d_unit d_card]. unfold quantize.
  cbn [adiv aZ Qar]. destruct (clip _ _ _ _); reflexivity.
Qed.

(** C43, refuted in double precision: -5.0 .. -1.8, linear: 1.0 is decoded to a number above -1.8. *)
Theorem decode_bounds_binary64_refuted : exists l u, SFltb l u = true /\
  forall lnf expf, exists d, floating (Bar64 lnf expf) l u false None false = Ok d /\
  SFltb u (from_unit (Bar64 lnf expf) d (aZ (Bar64 lnf expf) 1)) = true.
Proof.
  exists (b64 true 5629499534213120 (-50)), (b64 true 8106479329266893 (-52)).
  split; [reflexivity |]. intros lnf expf. eexists. split; reflexivity.
Qed.

(** C43, refuted in double precision: 1e-05 .. 0.1, logarithmic.  The values of log and exp
    are those of the C library. *)
Theorem decode_log_bounds_binary64_refuted : exists l u, SFltb l u = true /\
  forall lnf expf, lnf l = b64 true 6481200854248027 (-49) -> lnf u = b64 true 5184960683398421 (-51) ->
  expf (b64 true 5184960683398420 (-51)) = b64 false 7205759403792798 (-56) ->
  exists d, floating (Bar64 lnf expf) l u true None false = Ok d /\
  SFltb u (from_unit (Bar64 lnf expf) d (aZ (Bar64 lnf expf) 1)) = true.
Proof.
  exists (b64 false 5902958103587057 (-69)), (b64 false 7205759403792794 (-56)).
  split; [reflexivity |]. intros lnf expf L U E.
  unfold floating, log_of.
  assert (P : altb (Bar64 lnf expf) (aZ (Bar64 lnf expf) 0) (b64 false 5902958103587057 (-69)) = true) by reflexivity.
  assert (P' : altb (Bar64 lnf expf) (aZ (Bar64 lnf expf) 0) (b64 false 7205759403792794 (-56)) = true) by reflexivity.
  rewrite P, P'. cbn [andb bind aln Bar64 Bar]. rewrite L, U.
  eexists. split; [reflexivity |].
  set (ll := b64 true 6481200854248027 (-49)). set (lu := b64 true 5184960683398421 (-51)).
  change (SFltb (b64 false 7205759403792794 (-56))
            (expf (SFadd 53 1024 (SFmul 53 1024 (sf_of_Z 53 1024 1) (SFsub 53 1024 lu ll)) ll)) = true).
  assert (EY : SFadd 53 1024 (SFmul 53 1024 (sf_of_Z 53 1024 1) (SFsub 53 1024 lu ll)) ll
               = b64 true 5184960683398420 (-51)) by reflexivity.
  rewrite EY, E. reflexivity.
Qed.
Example decode_log_bounds_binary64_ex : exists lnf expf : spec_float -> spec_float,
  lnf (b64 false 5902958103587057 (-69)) = b64 true 6481200854248027 (-49) /\
  lnf (b64 false 7205759403792794 (-56)) = b64 true 5184960683398421 (-51) /\
  expf (b64 true 5184960683398420 (-51)) = b64 false 7205759403792798 (-56).
Proof.
  exists (fun x => if SFltb x (b64 false 4503599627370496 (-66)) then b64 true 6481200854248027 (-49)
                   else b64 true 5184960683398421 (-51)).
  exists (fun _ => b64 false 7205759403792798 (-56)). repeat split.
Qed.

(** C44: legal values are encoded in the unit interval. *)
Theorem encoded_in_unit : forall lnf expf s cat d x,
  ideal lnf expf -> good s -> make lnf expf s cat = Ok d -> legal lnf expf s x ->
  exists t, to_unit (Qar lnf expf) d (Some x) = Some t /\ 0 <= t /\ t <= 1.
Proof. exact encoded_unit_l. Qed.
Example encoded_in_unit_ex :
  ideal pln pexp /\ good ex_log /\ make pln pexp ex_log false = Ok (pdom ex_log) /\ legal pln pexp ex_log 2 /\
  to_unit (Qar pln pexp) (pdom ex_log) (Some 2) = Some (1 # 2).
Proof.
  split; [exact ideal_p |]. split; [exact ex_log_good |]. split; [exact (pdom_made _ ex_log_good) |].
  split; [exact ex_log_legal | reflexivity].
Qed.

(** C44: encoding and then decoding returns the value: linear ranges of integers, and all ranges
    of numbers. *)
Theorem encode_decode_roundtrip : forall lnf expf s cat d x,
  ideal lnf expf -> good s -> exact s -> make lnf expf s cat = Ok d -> legal lnf expf s x ->
  gives (from_unit (Qar lnf expf) d (to_unit (Qar lnf expf) d (Some x))) x.
Proof. exact roundtrip_l. Qed.
Example encode_decode_roundtrip_ex :
  ideal pln pexp /\ good ex_bin /\ exact ex_bin /\ make pln pexp ex_bin false = Ok (pdom ex_bin) /\
  legal pln pexp ex_bin (3 # 4) /\
  gives (from_unit (Qar pln pexp) (pdom ex_bin) (to_unit (Qar pln pexp) (pdom ex_bin) (Some (3 # 4)))) (3 # 4) /\
  gives (from_unit (Qar pln pexp) (pdom ex_int) (to_unit (Qar pln pexp) (pdom ex_int) (Some 6))) 6.
Proof.
  split; [exact ideal_p |]. split; [exact ex_bin_good |]. split; [exact I |]. split; [exact (pdom_made _ ex_bin_good) |].
  split; [exact ex_bin_legal |]. split; eexists; split; reflexivity.
Qed.

(** C44: the bounds themselves return for all ranges, logarithmic ranges of integers included. *)
Theorem encode_decode_ends : forall lnf expf s cat d,
  ideal lnf expf -> good s -> make lnf expf s cat = Ok d ->
  gives (from_unit (Qar lnf expf) d (to_unit (Qar lnf expf) d (Some (lo s)))) (lo s) /\
  gives (from_unit (Qar lnf expf) d (to_unit (Qar lnf expf) d (Some (hi s)))) (hi s).
Proof. exact roundtrip_ends_l. Qed.
Example encode_decode_ends_ex :
  ideal pln pexp /\ good (DInt 1 4 true None) /\ make pln pexp (DInt 1 4 true None) false = Ok (pdom (DInt 1 4 true None)) /\
  gives (from_unit (Qar pln pexp) (pdom (DInt 1 4 true None)) (to_unit (Qar pln pexp) (pdom (DInt 1 4 true None)) (Some 4))) 4.
Proof.
  assert (G : good (DInt 1 4 true None)) by (split; [reflexivity |]; split; [reflexivity | discriminate]).
  split; [exact ideal_p |]. split; [exact G |]. split; [exact (pdom_made _ G) |].
  eexists; split; reflexivity.
Qed.

(** C44: decoding and then encoding returns the unit value, for numbers without bins. *)
Theorem decode_encode_roundtrip : forall lnf expf l u g cat d t,
  ideal lnf expf -> good (DFloat l u g None) -> make lnf expf (DFloat l u g None) cat = Ok d -> 0 <= t -> t <= 1 ->
  gives (to_unit (Qar lnf expf) d (from_unit (Qar lnf expf) d (Some t))) t.
Proof. exact unit_roundtrip_l. Qed.
Example decode_encode_roundtrip_ex :
  ideal pln pexp /\ good ex_log /\ make pln pexp ex_log false = Ok (pdom ex_log) /\
  gives (to_unit (Qar pln pexp) (pdom ex_log) (from_unit (Qar pln pexp) (pdom ex_log) (Some (1 # 5)))) (1 # 5).
Proof.
  split; [exact ideal_p |]. split; [exact ex_log_good |]. split; [exact (pdom_made _ ex_log_good) |].
  eexists; split; reflexivity.
Qed.

(** C44, refuted for logarithmic ranges of integers: 1..4, where 2 comes back as 3.  The
    conditions on log and exp hold of the real ones (4^(2/3) = 2.52). *)
Theorem log_integer_roundtrip_refuted : exists s x y, good s /\ ~ x == y /\
  forall lnf expf, legal lnf expf s x /\
  (lnf 1 == 0 -> 0 < lnf 2 -> lnf 4 == 2 * lnf 2 ->
   (forall y, y == (2 # 3) * lnf 4 -> 5 # 2 < expf y /\ expf y < 7 # 2) ->
   forall cat d, make lnf expf s cat = Ok d ->
   gives (from_unit (Qar lnf expf) d (to_unit (Qar lnf expf) d (Some x))) y).
Proof.
  exists (DInt 1 4 true None), 2, 3.
  split; [split; [reflexivity |]; split; [reflexivity | discriminate] |].
  split; [discriminate |]. intros lnf expf. split; [| exact (log_int_refuted_l lnf expf)].
  split; [discriminate |]. split; [discriminate |]. split; [intros _; exists 2%Z; reflexivity | discriminate].
Qed.
Example log_integer_roundtrip_ex :
  let lnf := fun x => if Qle_bool x 2 then x - 1 else 1 + (x - 2) / 2 in
  let expf := fun y => if Qle_bool y 1 then y + 1 else 2 + (y - 1) * 2 in
  lnf 1 == 0 /\ 0 < lnf 2 /\ lnf 4 == 2 * lnf 2 /\
  (forall y, y == (2 # 3) * lnf 4 -> 5 # 2 < expf y /\ expf y < 7 # 2) /\
  exists d, make lnf expf (DInt 1 4 true None) false = Ok d.
Proof.
  cbv zeta. split; [reflexivity |]. split; [reflexivity |]. split; [reflexivity |]. split.
  - intros y H. destruct (Qle_bool y 1) eqn:C.
    + apply Qle_bool_iff in C. exfalso. revert H. change (if Qle_bool 4 2 then 4 - 1 else 1 + (4 - 2) / 2) with (1 + (4 - 2) / 2).
      setoid_replace (1 + (4 - 2) / 2) with 2 by reflexivity. lra.
    + revert H. change (if Qle_bool 4 2 then 4 - 1 else 1 + (4 - 2) / 2) with (1 + (4 - 2) / 2).
      setoid_replace (1 + (4 - 2) / 2) with 2 by reflexivity. lra.
  - eexists. reflexivity.
Qed.

(** C44, refuted for ranges of integers with bins: 0..3 in three bins, where 2 comes back as 3. *)
Theorem binned_integer_roundtrip_refuted : exists s x y, good s /\ ~ x == y /\
  forall lnf expf cat, legal lnf expf s x /\ exists d, make lnf expf s cat = Ok d /\
  gives (from_unit (Qar lnf expf) d (to_unit (Qar lnf expf) d (Some x))) y.
Proof.
  exists (DInt 0 3 false (Some 3%Z)), 2, 3.
  split; [split; [reflexivity |]; split; [discriminate |]; intros b [= <-]; lia |].
  split; [discriminate |]. intros lnf expf cat. split.
  - split; [discriminate |]. split; [discriminate |]. split; [intros _; exists 2%Z; reflexivity |].
    intros b [= <-]. exists 1%Z. split; [lia |]. exists 2%Z. split; [reflexivity |]. split; discriminate.
  - eexists. split; [reflexivity |]. eexists. split; reflexivity.
Qed.

(** C44, refuted in double precision: 0.0 .. 10.0, where 0.9 comes back as 0.8999999999999999. *)
Theorem roundtrip_binary64_refuted : exists l u x, SFleb l x = true /\ SFleb x u = true /\
  forall lnf expf, exists d, floating (Bar64 lnf expf) l u false None false = Ok d /\
  SFltb (from_unit (Bar64 lnf expf) d (to_unit (Bar64 lnf expf) d x)) x = true.
Proof.
  exists (S754_zero false), (b64 false 5629499534213120 (-49)), (b64 false 8106479329266893 (-53)).
  split; [reflexivity |]. split; [reflexivity |]. intros lnf expf. eexists. split; reflexivity.
Qed.

(** C45: a cast gives what normalising and denormalising gives, a legal value of the target.
    Excepted are casts between logarithmic or binned ranges of integers with the same bounds, and
    the case that the bounds of the target are the logarithms of those of the source. *)
Theorem cast_through_unit : forall lnf expf s s' cat cat' d d' x,
  ideal lnf expf -> good s -> good s' -> make lnf expf s cat = Ok d -> make lnf expf s' cat' = Ok d' ->
  legal lnf expf s' x -> (exact s' \/ ~ (lo s == lo s' /\ hi s == hi s')) -> ~ log_coincidence lnf s s' ->
  exists v w, cast (Qar lnf expf) d d' (Some x) = Some v /\
              from_unit (Qar lnf expf) d (to_unit (Qar lnf expf) d' (Some x)) = Some w /\ v == w /\
              legal lnf expf s v.
Proof. exact cast_l. Qed.
Example cast_through_unit_ex :
  ideal pln pexp /\ good ex_bin /\ good ex_int /\ make pln pexp ex_bin false = Ok (pdom ex_bin) /\
  make pln pexp ex_int false = Ok (pdom ex_int) /\ legal pln pexp ex_int 6 /\ exact ex_int /\
  ~ log_coincidence pln ex_bin ex_int /\
  gives (cast (Qar pln pexp) (pdom ex_bin) (pdom ex_int) (Some 6)) (3 # 4).
Proof.
  split; [exact ideal_p |]. split; [exact ex_bin_good |]. split; [exact ex_int_good |].
  split; [reflexivity |]. split; [reflexivity |].
  split; [exact (ex_int_legal 6 ltac:(lia)) |]. split; [split; reflexivity |].
  split; [intros (H & _); discriminate |]. eexists; split; reflexivity.
Qed.

(** C45: a cast to the same domain returns the value; all ranges. *)
Theorem cast_same_domain : forall lnf expf s cat cat' d d' x,
  good s -> make lnf expf s cat = Ok d -> make lnf expf s cat' = Ok d' -> legal lnf expf s x ->
  gives (cast (Qar lnf expf) d d' (Some x)) x.
Proof. exact cast_self_l. Qed.
Example cast_same_domain_ex :
  good ex_int /\ make pln pexp ex_int false = Ok (pdom ex_int) /\ legal pln pexp ex_int 6 /\
  cast (Qar pln pexp) (pdom ex_int) (pdom ex_int) (Some 6) = Some 6.
Proof.
  split; [exact ex_int_good |]. split; [reflexivity |]. split; [exact (ex_int_legal 6 ltac:(lia)) | reflexivity].
Qed.

(** C45, refuted: the logarithms of the bounds 1 .. e of the source are the bounds 0 .. 1 of the
    target; the cast returns the exponential of the value, outside of the target.  For all
    increasing and mutually inverse functions with ln 1 = 0. *)
Theorem cast_log_bounds_outside : forall lnf expf, ideal lnf expf -> lnf 1 == 0 ->
  exists s s' d d' x v, good s /\ good s' /\ make lnf expf s false = Ok d /\ make lnf expf s' false = Ok d' /\
  legal lnf expf s' x /\ cast (Qar lnf expf) d d' (Some x) = Some v /\ hi s < v.
Proof.
  intros lnf expf I L1. assert (J := I). destruct J as (I1 & I2 & I3 & I4 & I5 & I6).
  assert (E1 : expf 0 == 1).
  { assert (E : expf (lnf 1) == 1) by (apply I4; reflexivity).
    apply (Qeq_trans _ (expf (lnf 1))); [| exact E]. apply Qle_antisym; apply I3; lra. }
  set (e := expf 1).
  assert (Pe : 0 < e) by apply I6.
  assert (LE : lnf e == 1) by apply I5.
  assert (Ge : 1 < e).
  { destruct (Qlt_le_dec 1 e) as [H | H]; auto. exfalso.
    destruct (Qlt_le_dec e 1) as [H' | H'].
    - assert (X := I1 e 1 Pe H'). lra.
    - assert (X : e == 1) by lra. assert (Y := I2 _ _ X). lra. }
  exists (DFloat 0 1 false None), (DFloat 1 e true None), (dom lnf (DFloat 0 1 false None) false),
         (dom lnf (DFloat 1 e true None) false), e, (expf e).
  assert (G : good (DFloat 0 1 false None)) by (split; [reflexivity | split; discriminate]).
  assert (G' : good (DFloat 1 e true None)).
  { split; [exact Ge |]. split; [reflexivity | discriminate]. }
  split; [exact G |]. split; [exact G' |]. split; [apply make_total; exact G |]. split; [apply make_total; exact G' |].
  split.
  { split; [cbn; lra |]. split; [apply Qle_refl |]. split; discriminate. }
  split.
  - unfold cast.
    assert (SD : same_domain (Qar lnf expf) (dom lnf (DFloat 0 1 false None) false) (dom lnf (DFloat 1 e true None) false) = false).
    { unfold same_domain. cbn. reflexivity. }
    rewrite SD. cbn [dom d_unit].
    assert (LL : log_lift (Qar lnf expf) (dom lnf (DFloat 0 1 false None) false) (dom lnf (DFloat 1 e true None) false) = true).
    { unfold log_lift. cbn [dom d_log d_card card logs is_log lo hi]. rewrite andb_true_r.
      unfold d_lower, d_upper. cbn [d_bounds b_lower b_upper].
      apply pair_eqb_true; [symmetry; exact L1 | symmetry; exact LE]. }
    cbn [dom] in LL. rewrite LL. reflexivity.
  - cbn [hi]. assert (X : expf 1 <= expf e) by (apply I3; lra). fold e in X. lra.
Qed.
Example cast_log_bounds_outside_ex : ideal pln pexp /\ pln 1 == 0.
Proof. split; [exact ideal_p | reflexivity]. Qed.
(** In particular the claim is false. *)
Theorem cast_log_bounds_refuted : exists lnf expf s s' d d' x v, ideal lnf expf /\ good s /\ good s' /\
  make lnf expf s false = Ok d /\ make lnf expf s' false = Ok d' /\
  legal lnf expf s' x /\ cast (Qar lnf expf) d d' (Some x) = Some v /\ hi s < v.
Proof.
  destruct (cast_log_bounds_outside pln pexp ideal_p eq_refl) as (s & s' & d & d' & x & v & H).
  exists pln, pexp, s, s', d, d', x, v. split; [exact ideal_p | exact H].
Qed.
Print Assumptions cast_log_bounds_outside.

(** C45: the flag that the shortcut for the unit interval asks for is never set. *)
Theorem unit_shortcut_never_taken : forall (T : Type) (A : arith T) l u g b cat d,
  (floating A l u g b cat = Ok d \/ integer A l u g b cat = Ok d) -> d_unit d = false.
Proof. intros T A. exact (unit_flag_l A). Qed.
Example unit_shortcut_ex : floating (Qar pln pexp) (Some 0) (Some 1) false None false = Ok (unit_float_domain (Qar pln pexp)).
Proof. reflexivity. Qed.

(** C71: every entry of a tensor is cast between the domains of its column. *)
Theorem translate_by_column : forall (T : Type) (A : arith T) n x frm to y,
  translate A n x frm to = Ok y -> (forall row, In row x -> List.length row = n) ->
  List.length y = List.length x /\
  forall i row, nth_error x i = Some row ->
  exists row', nth_error y i = Some row' /\ List.length row' = n /\
  forall j v f t, nth_error row j = Some v ->
    match frm with inl d => f = d | inr l => nth_error l j = Some f end ->
    match to with inl d => t = d | inr l => nth_error l j = Some t end ->
    nth_error row' j = Some (cast A t f v).
Proof. intros T A. exact (translate_cell_l A). Qed.
(** C71: it fails just if the number of domains is not the number of columns. *)
Theorem translate_wrong_width : forall (T : Type) (A : arith T) n x frm to,
  (exists e, translate A n x frm to = Err e) <->
  match frm with inl _ => False | inr l => List.length l <> n end \/
  match to with inl _ => False | inr l => List.length l <> n end.
Proof. intros T A. exact (translate_err_l A). Qed.
Example translate_ex :
  translate (Qar pln pexp) 2 [[Some (1 # 2); Some (3 # 4)]; [Some 0; Some 1]]
    (inl (unit_float_domain (Qar pln pexp))) (inr [pdom ex_int; pdom ex_bin])
  = Ok [[Some 5; Some (3 # 4)]; [Some 3; Some (4 # 4)]] /\
  translate (Qar pln pexp) 2 [] (inl (pdom ex_int)) (inr [pdom ex_int]) = Err ValueError.
Proof. split; reflexivity. Qed.

Print Assumptions decoded_values_legal.
Print Assumptions decoded_ends.
Print Assumptions decoded_monotone.
Print Assumptions decoded_integer_share.
Print Assumptions decode_single_value_refuted.
Print Assumptions decode_bounds_binary64_refuted.
Print Assumptions decode_log_bounds_binary64_refuted.
Print Assumptions encoded_in_unit.
Print Assumptions encode_decode_roundtrip.
Print Assumptions encode_decode_ends.
Print Assumptions decode_encode_roundtrip.
Print Assumptions log_integer_roundtrip_refuted.
Print Assumptions binned_integer_roundtrip_refuted.
Print Assumptions roundtrip_binary64_refuted.
Print Assumptions cast_through_unit.
Print Assumptions cast_same_domain.
Print Assumptions cast_log_bounds_refuted.
Print Assumptions unit_shortcut_never_taken.
Print Assumptions translate_by_column.
Print Assumptions translate_wrong_width.
