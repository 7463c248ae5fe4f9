(** Properties C01, C02, C03. *)
From Verif Require Import Base Store_model Store_spec Store_proofs.

(** C01/C02: for every schedule of operations by any workers that follow the
    calling discipline, everything the callers observe (which puts are accepted,
    which values are returned, which errors are raised) is what an append-only log
    of accepted writes would show. *)
Theorem store_refines_register : forall (T : Type) (os : list (op T)),
  disciplined reg0 os = true ->
  snd (run init os) = snd (spec_run reg0 os).
Proof. intros T os H. exact (store_refines_register_lemma os H). Qed.
Print Assumptions store_refines_register.

(** C01/C02: and what is on disk is the last accepted write (nothing else). *)
Theorem store_disk_is_last_accepted : forall (T : Type) (os : list (op T)),
  disciplined reg0 os = true ->
  d_data (w_disk (fst (run init os))) = latest (fst (spec_run reg0 os)).
Proof. intros T os H. exact (disk_holds_latest_lemma os H). Qed.
Print Assumptions store_disk_is_last_accepted.

(** Three workers; 1 and 2 modify the same value, 1 wins, 2 is rejected and then
    reads 1's value. *)
Definition ex_ops : list (op nat) :=
  [ ONew 0 10; OLoad 1; OLoad 2;
    OMutate 1 (fun x => x + 1); OMutate 2 (fun x => x + 5);
    OPutCur 1; OPutCur 2; OSynced 2; OAcquire 0 (fun x => Some (x * 2)); OSynced 1 ].
Example ex_ops_disciplined : disciplined reg0 ex_ops = true.
Proof. reflexivity. Qed.
Example ex_ops_outputs : snd (run init ex_ops) =
  [OutUnit; OutVal 10; OutVal 10; OutUnit; OutUnit; OutUnit;
   OutErr VersionMismatchError; OutVal 11; OutVal 11; OutVal 22].
Proof. reflexivity. Qed.

(** C01, without any calling discipline: after an operation [o] that brought [w] up
    to date, a put by [w] is accepted exactly when nobody stored anything since; an
    accepted put stores exactly [x]; a rejected one leaves the disk as it is. *)
Theorem put_accepted_iff_nothing_stored_since :
  forall (T : Type) (pre : list (op T)) (o : op T) (mid : list (op T)) (w : nat) (x : T),
  let s1 := fst (run init pre) in
  let s2 := fst (step s1 o) in let y := snd (step s1 o) in
  let s3 := fst (run s2 mid) in let ys := snd (run s2 mid) in
  op_worker o = w -> refreshed o y = true ->
  (forall o' y', In (o', y') (combine mid ys) -> op_worker o' = w -> refreshed o' y' = false) ->
  let s4 := fst (step s3 (OPut w x)) in
  let z := snd (step s3 (OPut w x)) in
  if existsb (fun p => stored (fst p) (snd p)) (combine mid ys)
  then z = OutErr VersionMismatchError /\ w_disk s4 = w_disk s3
  else z = OutUnit /\ d_data (w_disk s4) = Some x.
Proof. intros T pre o mid w x. exact (put_accepted_iff_lemma pre o mid w x). Qed.
Print Assumptions put_accepted_iff_nothing_stored_since.

(** Both branches occur. *)
Example put_accepted_case :
  let s2 := fst (step (fst (run init [ONew 0 10])) (OLoad 1)) in
  snd (step (fst (run s2 [OSynced 0; OLockFail 1; OMutate 0 S])) (OPut 1 7)) = OutUnit.
Proof. reflexivity. Qed.
Example put_rejected_case :
  let s2 := fst (step (fst (run init [ONew 0 10])) (OLoad 1)) in
  snd (step (fst (run s2 [OSynced 0; OAcquire 0 (fun x => Some x)])) (OPut 1 7))
  = OutErr VersionMismatchError.
Proof. reflexivity. Qed.

(** C02, negative part: the object returned by synced() is the cache itself.  If a
    worker modifies it and its put then fails to get the lock, the next synced()
    returns the modified value although nothing was stored. *)
Theorem synced_after_failed_put_refuted :
  exists (os : list (op nat)) (w : nat),
    Forall (fun o => match o with OPut _ _ => False | _ => True end) os /\
    snd (step (fst (run init os)) (OSynced w)) = OutVal 11 /\
    d_data (w_disk (fst (run init os))) = Some 10 /\
    existsb (fun p => stored (fst p) (snd p))
      (combine (tl os) (tl (snd (run init os)))) = false.
Proof.
  exists [ONew 0 10; OLoad 1; OMutate 1 S; OLockFail 1], 1.
  repeat split; repeat constructor.
Qed.
Print Assumptions synced_after_failed_put_refuted.

(** C03: if [c] is the first of any number of workers to enter new_or_load and the
    others are scheduled in any order [ws], then [c] and nobody else creates the
    resource, nobody gets an error, the data on disk is [c]'s, everybody who
    returned holds [c]'s data, and everybody scheduled at least twice has returned. *)
Theorem new_or_load_elects_one_creator :
  forall (T : Type) (data : nat -> T) (c : nat) (ws : list nat),
  let '(d, pcs) := nl_run data (mkDisk None None 0) (fun _ => NLStart) (c :: ws) in
  d_data d = Some (data c) /\
  (exists h, pcs c = NLCreated h /\ h_current h = data c) /\
  (forall w h, pcs w = NLCreated h -> w = c) /\
  (forall w e, pcs w <> NLRaised e) /\
  (forall w h, pcs w = NLLoaded h -> h_current h = data c) /\
  (forall w, w <> c -> 2 <= count_occ Nat.eq_dec ws w ->
     exists h, pcs w = NLLoaded h /\ h_current h = data c).
Proof. intros T data c ws. exact (new_or_load_elects_one_lemma data c ws). Qed.
Print Assumptions new_or_load_elects_one_creator.

Example new_or_load_race :
  snd (nl_run (fun w => w * 100) (mkDisk None None 0) (fun _ => NLStart) [2; 1; 3; 1; 3]) 3
  = NLLoaded (mkHandle 200 0).
Proof. reflexivity. Qed.
