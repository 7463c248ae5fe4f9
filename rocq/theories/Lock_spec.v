(** Vocabulary for environment variables and locks. *)
From Coq Require Import String Ascii.
From Verif Require Import Py Lock_model.
Local Open Scope string_scope.
Local Open Scope list_scope.

(** The same letter, the first one maybe a capital *)
Definition same_letter (a b : ascii) : Prop :=
  a = b \/ (65 <= nat_of_ascii a <= 90 /\ nat_of_ascii a + 32 = nat_of_ascii b)%nat.
(** none, n or null, in any mixture of capitals *)
Definition null_text (e : string) : Prop :=
  exists w, In w ["none"; "n"; "null"] /\ Forall2 same_letter (list_ascii_of_string e) (list_ascii_of_string w).
(** A text is read as a setting. *)
Definition reads (float_of_text : string -> res fl) (k : sort) (e : string) (v : option fl) : Prop :=
  (k = Timeout /\ null_text e /\ v = None) \/ ((k = Poll \/ ~ null_text e) /\ exists f, float_of_text e = Ok f /\ v = Some f).
(** The defaults: limits of 120 seconds, intervals of the number nearest to 1/20 of a second *)
Definition default_setting (k : sort) (v : option fl) : Prop :=
  match k with
  | Timeout => v = Some (FZ (120 * 2 ^ 1074))
  | Poll => exists q, v = Some (FZ (q * 2 ^ 1017)) /\ (2 * Z.abs (20 * (q * 2 ^ 1017) - 2 ^ 1074) <= 20 * 2 ^ 1017)%Z
  end.
(** The settings: an interval and a limit for each of five kinds of shared state *)
Definition setting (key : string) (k : sort) : Prop :=
  exists w, In w ["TRIAL"; "SEED_SNAPSHOT"; "OPTIMIZER_INFO"; "OPTIMIZER_STATE"; "GLOBAL_ERR"] /\
    key = ("NEPS_" ++ w ++ "_FILELOCK_" ++ match k with Poll => "POLL" | Timeout => "TIMEOUT" end)%string.
