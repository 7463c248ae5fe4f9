(** What the table of observations is supposed to contain. *)
From Verif Require Export Mf_model.
From Coq Require Export Sorted Permutation.
Local Notation length := List.length.
Open Scope Z_scope.

Definition labels (f : frame) : list key := map fst (f_rows f).

(** The row with a label, and one of its cells. *)
Definition row_at (f : frame) (k : key) : option (list pyval) :=
  option_map snd (find (fun r => key_eqb (fst r) k) (f_rows f)).
Definition cell_at (f : frame) (k : key) (column : string) : option pyval :=
  match row_at f k, index_of column (f_cols f) with
  | Some r, Some j => nth_error r j
  | _, _ => None
  end.

(** Every label once, every column once, every row with all columns. *)
Record wf_frame (f : frame) : Prop := mkWf {
  wf_labels : NoDup (labels f);
  wf_cols : NoDup (f_cols f);
  wf_width : (2 <= length (f_cols f))%nat;
  wf_rows : forall k r, In (k, r) (f_rows f) -> length r = length (f_cols f)
}.

(** Arguments as documented: one row per label with a value for each column. *)
Definition fits (f : frame) (data : list (list pyval)) (index : list key) : Prop :=
  index <> [] /\ NoDup index /\ length data = length index /\
  forall r, In r data -> length r = length (f_cols f).

(** One value per label for each of some columns. *)
Definition fits_update (data : list (string * list pyval)) (index : list key) : Prop :=
  index <> [] /\ NoDup index /\ data <> [] /\ NoDup (map fst data) /\
  forall name vals, In (name, vals) data -> length vals = length index.

(** Calls on a table. *)
Inductive call : Type :=
| Add (data : list (list pyval)) (index : list key) (error : bool)
| Update (data : list (string * list pyval)) (index : list key) (error : bool).
Definition do_call (f : frame) (c : call) : frame * res unit :=
  match c with
  | Add d i e => add_data f d i e
  | Update d i e => update_data f d i e
  end.
(** No label twice among those added at once. *)
Definition distinct (c : call) : Prop :=
  match c with Add _ i _ => NoDup i | Update _ _ _ => True end.
Definition after (f : frame) (cs : list call) : frame := fold_left (fun f c => fst (do_call f c)) cs f.

(** [v] is what the rows of configuration [i] say about column [j] at the highest budget
    at which they say anything. *)
Definition latest (f : frame) (i : Z) (j : nat) (v : pyval) : Prop :=
  (exists b r, row_at f (i, b) = Some r /\ nth_error r j = Some v /\ is_na v = false /\
     forall b' r' v', row_at f (i, b') = Some r' -> nth_error r' j = Some v' ->
                      is_na v' = false -> b' <= b)
  \/ (v = VFloat FNaN /\
      forall b r w, row_at f (i, b) = Some r -> nth_error r j = Some w -> is_na w = true).

(** The number recorded for configuration and budget. *)
Definition recorded (f : frame) (i b : Z) (x : fl) : Prop :=
  exists r v, row_at f (i, b) = Some r /\ nth_error r 1 = Some v /\ as_num v = Some x /\ x <> FNaN.

(** Numbers only (pending evaluations have none). *)
Definition numeric (f : frame) : Prop :=
  forall k r v, row_at f k = Some r -> nth_error r 1 = Some v -> is_na v = true \/ as_num v <> None.

(** [idx] sorts [l]. *)
Definition sorts (l : list Z) (idx : list nat) : Prop :=
  Permutation idx (seq 0 (length l)) /\
  StronglySorted (fun i j => nth i l 0 <= nth j l 0) idx.
