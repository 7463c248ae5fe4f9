(** Successive halving, ASHA, Hyperband and asynchronous Hyperband: which configuration
    at which fidelity comes next.
    neps/optimizers/multi_fidelity/successive_halving.py:217-454, 486-546,
    neps/optimizers/multi_fidelity/promotion_policy.py:36-111,
    neps/optimizers/multi_fidelity/hyperband.py:44-268, 357-450 *)
From Verif Require Export Py Ladder_model.
Open Scope nat_scope.
Open Scope list_scope.

(** A performance in the table: a float (NaN: none yet), or "error"
    (base_optimizer.py:23-25). *)
Inductive perf : Type := PNum (x : fl) | PErr.
Definition is_nan (p : perf) : bool := match p with PNum FNaN => true | _ => false end.
Definition is_err (p : perf) : bool := match p with PErr => true | _ => false end.

(** What is known of an evaluation: no report yet, a loss, or a failure. *)
Inductive outcome : Type := Pending | Loss (x : fl) | Failed.

(** Ids are "config_rung" with two numbers (successive_halving.py:217-220, 420). *)
Definition cid := (nat * nat)%type.

(** Options of the optimizer (successive_halving.py:49-67), and one fact about the
    environment: whether [pd.concat] of the empty frame (all columns of dtype object) with
    a row whose performance is NaN gives a column of dtype object.  It does with
    pandas 2; theorems hold for both answers unless they say otherwise. *)
Record options : Type := mkOpt {
  o_ignore_errors : bool;
  o_loss_on_error : option fl;
  o_use_priors : bool;
  o_default_first : bool;
  o_default_at_target : bool;
  o_empty_object : bool
}.

Section Sh.
(** The values of all hyperparameters but the fidelity. *)
Context {H : Type}.
(** [np.argsort] on floats: how it orders ties is not specified. *)
Variable argsort : list fl -> list nat.

(** A trial as the optimizer sees it: id, values, fidelity, outcome; and the predecessor
    it was stored with. *)
Record strial : Type := mkST {
  st_id : cid; st_hps : H; st_fid : Q; st_out : outcome; st_prev : option cid
}.

(** base_optimizer.py:17-42 _get_loss (a successful report always has a float as loss) *)
Definition get_loss (o : options) (x : outcome) : res perf :=
  match x with
  | Loss l => Ok (PNum l)
  | _ => if o_ignore_errors o then Ok PErr
         else match o_loss_on_error o with Some v => Ok (PNum v) | None => Err ValueError end
  end.

(** ** The table [observed_configs]: rows in the order of their labels, and whether the
    column "perf" has dtype object because "error" was stored in it. *)
Record row : Type := mkRow { r_id : nat; r_hps : H; r_fid : Q; r_rung : nat; r_perf : perf }.
Record table : Type := mkTab { t_rows : list row; t_obj : bool }.

Definition find_row (c : nat) (l : list row) : option row :=
  find (fun r => Nat.eqb (r_id r) c) l.

(** [pd.concat((observed, _df)).sort_index()], the label being new
    (successive_halving.py:246-248, 268-270) *)
Fixpoint insert_row (r : row) (l : list row) : list row :=
  match l with
  | [] => [r]
  | r' :: l' => if Nat.ltb (r_id r) (r_id r') then r :: l else r' :: insert_row r l'
  end.

(** [observed_configs.at[c, ...] = ...] *)
Definition update_row (c : nat) (f : row -> row) (l : list row) : list row :=
  map (fun r => if Nat.eqb (r_id r) c then f r else r) l.

(** successive_halving.py:226-253, one finished trial; [lo], [hi]: the rungs of
    [rung_histories] *)
Definition load_one (o : options) (lo hi : nat) (tb : table) (t : strial) : res table :=
  let '(c, r) := st_id t in
  bind (get_loss o (st_out t)) (fun p =>
  let tb' :=
    match find_row c (t_rows tb) with
    | Some x =>
        if Nat.ltb (r_rung x) r
        then mkTab (update_row c (fun _ => mkRow c (st_hps t) (st_fid t) r p) (t_rows tb))
               (t_obj tb || is_err p)
        else tb
    | None => mkTab (insert_row (mkRow c (st_hps t) (st_fid t) r p) (t_rows tb)) (t_obj tb || is_err p)
    end in
  if Nat.leb lo r && Nat.leb r hi then Ok tb' else Err KeyError).

(** successive_halving.py:222-253 _load_previous_observations *)
Fixpoint load_previous (o : options) (lo hi : nat) (tb : table) (ts : list strial) : res table :=
  match ts with
  | [] => Ok tb
  | t :: ts' => bind (load_one o lo hi tb t) (fun tb' => load_previous o lo hi tb' ts')
  end.

(** successive_halving.py:255-273 _handle_pending_evaluations *)
Definition pending_one (o : options) (tb : table) (t : strial) : table :=
  let '(c, r) := st_id t in
  match find_row c (t_rows tb) with
  | None => mkTab (insert_row (mkRow c (st_hps t) (st_fid t) r (PNum FNaN)) (t_rows tb))
              (t_obj tb || o_empty_object o && match t_rows tb with [] => true | _ => false end)
  | Some _ => mkTab (update_row c (fun x => mkRow c (r_hps x) (r_fid x) r (PNum FNaN)) (t_rows tb)) (t_obj tb)
  end.
Definition handle_pending (o : options) (tb : table) (ts : list strial) : table :=
  fold_left (pending_one o) ts tb.

Definition is_pending (t : strial) : bool := match st_out t with Pending => true | _ => false end.

(** successive_halving.py:327-349: the table from all trials *)
Definition observe (o : options) (lo hi : nat) (ts : list strial) : res table :=
  bind (load_previous o lo hi (mkTab [] false) (filter (fun t => negb (is_pending t)) ts))
    (fun tb => Ok (handle_pending o tb (filter is_pending ts))).

(** ** Rungs *)
(** successive_halving.py:288-294: without the default at the target fidelity *)
Definition drop_default (o : options) (l : list row) : list row :=
  if o_default_first o && o_default_at_target o
  then filter (fun r => negb (Nat.eqb (r_id r) 0)) l else l.

(** successive_halving.py:275-301 _get_rungs_state for the given rows: members of rung [k]
    with their performances; [keys] are the rungs of rung_map *)
Definition members (keys : list nat) (l : list row) (k : nat) : res (list (nat * perf)) :=
  if existsb (Nat.eqb k) keys || existsb (fun r => Nat.eqb (r_rung r) k) l
  then Ok (map (fun r => (r_id r, r_perf r)) (filter (fun r => Nat.eqb (r_rung r) k) l))
  else Err KeyError.

(** [dropna()] (successive_halving.py:284) *)
Definition dropna (l : list row) : list row := filter (fun r => negb (is_nan (r_perf r))) l.

(** [np.argsort] of performances: comparing "error" with a float raises TypeError. *)
Definition argsort_perfs (l : list perf) : res (list nat) :=
  if forallb is_err l then Ok (argsort (map (fun _ => FZ 0) l))
  else if existsb is_err l then Err TypeError
  else Ok (argsort (map (fun p => match p with PNum x => x | PErr => FNaN end) l)).

(** [np.array(ids)[idx]] *)
Definition pick (ids : list nat) (idx : list nat) : list nat :=
  flat_map (fun i => match nth_error ids i with Some x => [x] | None => [] end) idx.

(** [l[:k]] *)
Definition slice_to {A} (k : Z) (l : list A) : list A :=
  if Z.ltb k 0 then firstn (Z.to_nat (Z.of_nat (length l) + k)) l else firstn (Z.to_nat k) l.

(** [np.isnan(perfs).sum()]: TypeError on an array of dtype object; an empty rung is a
    list *)
Definition count_nan (obj : bool) (l : list perf) : res nat :=
  if obj && negb (match l with [] => true | _ => false end) then Err TypeError
  else Ok (length (filter is_nan l)).

Definition promotions := list (nat * list nat).

Fixpoint set_promo (k : nat) (v : list nat) (l : promotions) : promotions :=
  match l with
  | [] => [(k, v)]
  | (k', v') :: l' => if Nat.eqb k k' then (k, v) :: l' else (k', v') :: set_promo k v l'
  end.

(** promotion_policy.py:59-86 SyncPromotionPolicy.retrieve_promotions: the loop over the
    rungs from the highest; [total]: total_rung_evals *)
Fixpoint sync_loop (eta : nat) (sizes : list (nat * nat)) (max_rung : nat)
  (mem : nat -> res (list (nat * perf))) (obj : bool) (rungs : list nat) (total : nat)
  (acc : promotions) : res promotions :=
  match rungs with
  | [] => Ok acc
  | k :: rest =>
      bind (mem k) (fun ms =>
      bind (ngetitem k sizes) (fun size =>
      let total' := total + length ms in
      let go := sync_loop eta sizes max_rung mem obj rest total' in
      if Nat.leb size total' then
        bind (count_nan obj (map snd ms)) (fun n =>
        if Nat.ltb 0 n then Ok acc
        else if Nat.eqb k max_rung then go acc
        else
          let top_k := (Z.of_nat (size / eta) - (Z.of_nat size - Z.of_nat (length ms)))%Z in
          match ms with
          | [] => Err TypeError     (* a rung without members is a list, indexed by an array *)
          | _ =>
              bind (argsort_perfs (map snd ms)) (fun idx =>
              go (set_promo k (pick (map fst ms) (slice_to top_k idx)) acc))
          end)
      else go acc))
  end.
Definition sync_promotions (eta : nat) (b : bracket) (mem : nat -> res (list (nat * perf))) (obj : bool)
  : res promotions :=
  sync_loop eta (b_sizes b) (b_max b) mem obj (rev (map fst (b_sizes b))) 0
    (map (fun e => (fst e, [])) (b_sizes b)).

(** promotion_policy.py:98-111 AsyncPromotionPolicy.retrieve_promotions *)
Fixpoint async_loop (eta : nat) (mem : nat -> res (list (nat * perf))) (rungs : list nat) : res promotions :=
  match rungs with
  | [] => Ok []
  | k :: rest =>
      bind (mem k) (fun ms =>
      bind (argsort_perfs (map snd ms)) (fun idx =>
      bind (async_loop eta mem rest) (fun ps =>
      Ok ((k, firstn (length ms / eta) (pick (map fst ms) idx)) :: ps))))
  end.
Definition async_promotions (eta max_rung : nat) (mem : nat -> res (list (nat * perf))) : res promotions :=
  async_loop eta mem (seq 0 max_rung).

(** ** The proposal *)
Record proposal : Type := mkProp { q_id : cid; q_hps : H; q_fid : Q; q_prev : option cid }.

(** successive_halving.py:392-402 is_promotable: the highest rung with a candidate *)
Fixpoint is_promotable (ps : promotions) (rungs : list nat) : res (option (nat * nat)) :=
  match rungs with
  | [] => Ok None
  | k :: rest =>
      bind (ngetitem k ps) (fun l =>
      match l with
      | [] => is_promotable ps rest
      | c :: _ => Ok (Some (k, c))
      end)
  end.

(** fidelity.set_value (float.py:121-131, integer.py:137-149) *)
Definition set_fidelity (f : fidelity) (x : Q) : res Q :=
  if Qle_bool (f_lower f) x && Qle_bool x (f_upper f) then Ok x else Err ValueError.

(** successive_halving.py:385-390 _generate_new_config_id *)
Definition new_id (l : list row) : nat :=
  match map r_id l with [] => 0 | x :: l' => S (fold_left Nat.max l' x) end.

(** successive_halving.py:404-454 get_config_and_ids.  [fresh]: the hyperparameters
    sampled if a new configuration is needed (from whatever distribution). *)
Definition get_config_and_ids (o : options) (f : fidelity) (b : bracket) (rows : list row)
  (ps : promotions) (fresh : H) : res proposal :=
  bind (is_promotable ps (rev (seq (b_min b) (b_max b - b_min b)))) (fun p =>
  match p with
  | Some (k, c) =>
      match nth_error rows c with         (* [.iloc[c]]: by position *)
      | None => Err IndexError
      | Some x =>
          bind (ngetitem (S k) (b_rungs b)) (fun budget =>
          bind (set_fidelity f budget) (fun fid =>
          Ok (mkProp (r_id x, S k) (r_hps x) fid (Some (r_id x, k)))))
      end
  | None =>
      let rung := if o_use_priors o && o_default_first o
                     && match rows with [] => true | _ => false end
                     && o_default_at_target o
                  then b_max b else b_min b in
      bind (ngetitem rung (b_rungs b)) (fun budget =>
      bind (set_fidelity f budget) (fun fid =>
      Ok (mkProp (new_id rows, rung) fresh fid None)))
  end).

(** ** Brackets of successive halving *)
(** [sum(np.arange(lo, hi + 1))] *)
Definition sum_range (lo hi : nat) : nat := list_sum (seq lo (S hi - lo)).

(** successive_halving.py:487-494 _calc_budget_used_in_bracket *)
Definition budget_used (b : bracket) (rungs : list nat) : nat :=
  list_sum (map (fun e => count_occ Nat.eq_dec rungs (fst e) * sum_range (b_min b) (fst e)) (b_sizes b)).

(** [rows[start:end]] *)
Definition slice {A} (s e : nat) (l : list A) : list A := firstn (e - s) (skipn s l).

Definition some_promotion (ps : promotions) : bool :=
  existsb (fun e => match snd e with [] => false | _ => true end) ps.

(** successive_halving.py:515-546, the loop of SuccessiveHalving.clear_old_brackets:
    the rows of the bracket to work on.  It ends because brackets are not empty; [fuel]
    is only for Coq. *)
Fixpoint find_bracket (fuel eta : nat) (o : options) (b : bracket) (obj : bool) (size : nat)
  (rows : list row) (s e : nat) : res (list row) :=
  match fuel with
  | O => Err OutOfFuel
  | S fuel' =>
      if Nat.leb e (length rows) then
        let cut := slice s e rows in
        let next := find_bracket fuel' eta o b obj size rows e (e + size) in
        if Nat.ltb (budget_used b (map r_rung cut)) (list_sum (rung_trace b)) then
          bind (sync_promotions eta b (members (map fst (b_rungs b)) (drop_default o cut)) obj) (fun ps =>
          if some_promotion ps then Ok cut else next)
        else next
      else Ok (slice s e rows)
  end.

Definition start_index (o : options) : nat :=
  if o_default_at_target o && o_default_first o then 1 else 0.

(** SuccessiveHalving.ask: successive_halving.py:321-364 with 496-546 *)
Definition sh_ask (o : options) (f : fidelity) (eta : nat) (b : bracket) (ts : list strial) (fresh : H)
  : res proposal :=
  bind (observe o (b_min b) (b_max b) ts) (fun tb =>
  bind (ngetitem (b_min b) (b_sizes b)) (fun size =>
  bind (find_bracket (S (length (t_rows tb))) eta o b (t_obj tb) size (t_rows tb)
          (start_index o) (start_index o + size)) (fun cut =>
  bind (sync_promotions eta b (members (map fst (b_rungs b)) (drop_default o cut)) (t_obj tb)) (fun ps =>
  get_config_and_ids o f b (t_rows tb) ps fresh)))).

(** AsynchronousSuccessiveHalving.ask: successive_halving.py:321-364 with 591-629 *)
Definition asha_ask (o : options) (f : fidelity) (eta : nat) (b : bracket) (ts : list strial) (fresh : H)
  : res proposal :=
  bind (observe o (b_min b) (b_max b) ts) (fun tb =>
  bind (async_promotions eta (b_max b)
          (members (map fst (b_rungs b)) (drop_default o (dropna (t_rows tb))))) (fun ps =>
  get_config_and_ids o f b (t_rows tb) ps fresh)).

(** hyperband.py:211-212 base_rung_sizes: the largest size of each bracket *)
Definition base_size (b : bracket) : nat := List.list_max (map snd (b_sizes b)).

(** hyperband.py:213-255, the loop of Hyperband.clear_old_brackets: the bracket to run and
    its rows.  [i]: current_sh_bracket *)
Fixpoint find_hb_bracket (fuel eta : nat) (o : options) (bs : list bracket) (obj : bool)
  (rows : list row) (i s e : nat) : res (bracket * list row) :=
  match fuel with
  | O => Err OutOfFuel
  | S fuel' =>
      match nth_error bs i with
      | None => Err KeyError
      | Some b =>
          if Nat.leb e (length rows) then
            let cut := slice s e rows in
            let j := (i + 1) mod length bs in
            let next := match nth_error bs j with
                        | None => Err IndexError
                        | Some b' => find_hb_bracket fuel' eta o bs obj rows j e (e + base_size b')
                        end in
            if Nat.ltb (budget_used b (map r_rung cut)) (list_sum (rung_trace b)) then
              bind (sync_promotions eta b (members (map fst (b_rungs b)) (drop_default o cut)) obj) (fun ps =>
              if some_promotion ps then Ok (b, cut) else next)
            else next
          else Ok (b, slice s e rows)
      end
  end.

(** Hyperband.ask: hyperband.py:128-173, 186-268.  [b0]: the bracket the Hyperband object
    itself was set up with, [bs]: sh_brackets. *)
Definition hb_ask (o : options) (f : fidelity) (eta : nat) (b0 : bracket) (bs : list bracket)
  (ts : list strial) (fresh : H) : res proposal :=
  bind (observe o (b_min b0) (b_max b0) ts) (fun tb =>
  match bs with
  | [] => Err KeyError
  | b1 :: _ =>
      bind (ngetitem (b_min b1) (b_sizes b1)) (fun size =>
      bind (find_hb_bracket (S (length (t_rows tb))) eta o bs (t_obj tb) (t_rows tb) 0
              (start_index o) (start_index o + size)) (fun '(b, cut) =>
      bind (sync_promotions eta b (members (map fst (b_rungs b)) (drop_default o cut)) (t_obj tb)) (fun ps =>
      get_config_and_ids o f b (t_rows tb) ps fresh)))
  end).

(** AsynchronousHyperband.ask: hyperband.py:128-173, 405-450; [i]: the bracket drawn *)
Definition ahb_ask (o : options) (f : fidelity) (eta : nat) (b0 : bracket) (bs : list bracket)
  (i : nat) (ts : list strial) (fresh : H) : res proposal :=
  bind (observe o (b_min b0) (b_max b0) ts) (fun tb =>
  bind (async_promotions eta (b_max b0)
          (members (map fst (b_rungs b0)) (drop_default o (dropna (t_rows tb))))) (fun ps =>
  match nth_error bs i with
  | None => Err KeyError
  | Some b => get_config_and_ids o f b (t_rows tb) ps fresh
  end)).

(** The four optimizers, set up with a fidelity parameter, eta and (for the first two)
    early_stopping_rate *)
Inductive kind : Type :=
| SuccessiveHalving (s : nat) | ASHA (s : nat) | Hyperband | AsyncHyperband.

Section Ask.
Variable lg : Q -> nat -> Z.
Definition ask (k : kind) (o : options) (f : fidelity) (eta : nat) (ts : list strial)
  (fresh : H) (draw : nat) : res proposal :=
  match k with
  | SuccessiveHalving s => bind (make_bracket lg f eta s) (fun b => sh_ask o f eta b ts fresh)
  | ASHA s => bind (make_bracket lg f eta s) (fun b => asha_ask o f eta b ts fresh)
  | Hyperband => bind (hyperband_brackets lg f eta) (fun '(b0, bs) => hb_ask o f eta b0 bs ts fresh)
  | AsyncHyperband =>
      bind (hyperband_brackets lg f eta) (fun '(b0, bs) => ahb_ask o f eta b0 bs draw ts fresh)
  end.
End Ask.

(** neps_state.py:95-140 sample_trial: the proposal is stored as a new trial.  Asking and
    storing happen under the optimizer's lock. *)
Definition stored (q : proposal) : strial := mkST (q_id q) (q_hps q) (q_fid q) Pending (q_prev q).
Definition with_outcome (t : strial) (x : outcome) : strial :=
  mkST (st_id t) (st_hps t) (st_fid t) x (st_prev t).
End Sh.
Arguments strial : clear implicits.
Arguments row : clear implicits.
Arguments table : clear implicits.
Arguments proposal : clear implicits.
