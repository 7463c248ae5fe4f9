(** What numbers in scientific notation are, and which double a number becomes. *)
From Verif Require Import Py.
From Coq Require Export Ascii.
Open Scope string_scope.
Open Scope list_scope.
Local Notation length := List.length.

(** ** Scientific notation *)
Inductive sign : Type := NoSign | Plus | Minus.
(** sign, digits before and after the point (None: no point), capital E?, sign and digits of the exponent *)
Record sci : Type := mkSci { sc_sign : sign; sc_int : list nat; sc_frac : option (list nat); sc_big : bool; sc_esign : sign; sc_exp : list nat }.
Definition frac_digits (c : sci) : list nat := match sc_frac c with Some f => f | None => [] end.
Definition valid (c : sci) : Prop :=
  Forall (fun d => d < 10)%nat (sc_int c) /\ Forall (fun d => d < 10)%nat (frac_digits c) /\ Forall (fun d => d < 10)%nat (sc_exp c) /\
  sc_int c ++ frac_digits c <> [] /\ sc_exp c <> [].
(** the form of the documentation (such as 3.3e-5): digits on both sides of the point, no plus signs *)
Definition simple (c : sci) : Prop :=
  sc_sign c <> Plus /\ sc_esign c <> Plus /\ sc_int c <> [] /\ sc_frac c <> Some [].
Definition digit_char (n : nat) : ascii := nth n ["0"; "1"; "2"; "3"; "4"; "5"; "6"; "7"; "8"; "9"]%char "?"%char.
Definition sign_text (s : sign) : list ascii := match s with NoSign => [] | Plus => ["+"%char] | Minus => ["-"%char] end.
Definition text (c : sci) : list ascii :=
  sign_text (sc_sign c) ++ map digit_char (sc_int c) ++
  match sc_frac c with Some f => "."%char :: map digit_char f | None => [] end ++
  (if sc_big c then "E" else "e")%char :: sign_text (sc_esign c) ++ map digit_char (sc_exp c).
(** the digits, the most significant first *)
Fixpoint digits_value (ds : list nat) : Z :=
  match ds with [] => 0%Z | d :: ds' => (Z.of_nat d * 10 ^ Z.of_nat (length ds') + digits_value ds')%Z end.
Definition signed (s : sign) (z : Z) : Z := match s with Minus => (- z)%Z | _ => z end.
(** the number, as a fraction [n / 10^k] *)
Definition sci_value (c : sci) : Z * Z :=
  let m := signed (sc_sign c) (digits_value (sc_int c ++ frac_digits c)) in
  let e := (signed (sc_esign c) (digits_value (sc_exp c)) - Z.of_nat (length (frac_digits c)))%Z in
  (m * 10 ^ Z.max 0 e, 10 ^ Z.max 0 (- e))%Z.

(** the text with blanks around it, and maybe the end of the line *)
Definition spaces (n : nat) : list ascii := repeat " "%char n.
Definition trailing (w : list ascii) : Prop := (exists j, w = spaces j) \/ (exists j k, w = spaces j ++ "010"%char :: spaces k).
Definition written (s : string) (c : sci) : Prop := exists i w, trailing w /\ list_ascii_of_string s = spaces i ++ text c ++ w.

(** ** Doubles *)
(** a multiple of 2^-1074 (the unit of [fl]) with 53 binary digits *)
Definition double (z : Z) : Prop := exists m k, (Z.abs m < 2 ^ 53 /\ 0 <= k /\ z = m * 2 ^ k)%Z.
(** how far [n / d] is from the double [z], times [d] *)
Definition off (n d z : Z) : Z := Z.abs (n * 2 ^ 1074 - d * z).
(** [f] is the double nearest to [n / d]; of two equally near ones the one whose last digit is even;
    infinite from half a unit above the largest double on *)
Definition nearest (n d : Z) (f : fl) : Prop :=
  match f with
  | FNaN => False
  | FPInf => (d * ((2 ^ 54 - 1) * 2 ^ 970) <= n)%Z
  | FNInf => (n <= - (d * ((2 ^ 54 - 1) * 2 ^ 970)))%Z
  | FZ z => double z /\ (Z.abs z < 2 ^ 1024 * 2 ^ 1074)%Z /\
      forall z', double z' -> (off n d z <= off n d z')%Z /\ (off n d z = off n d z' -> z' = z \/ (2 * (z' - z) | z)%Z)
  end.

(** ** What becomes of values *)
(** too large for a float *)
Definition huge (v : pyval) : Prop := match v with VInt z => ((2 ^ 54 - 1) * 2 ^ 970 <= Z.abs z)%Z | _ => False end.
Definition scalar (v : pyval) : Prop := match v with VStr _ | VBool _ | VInt _ | VFloat _ => True | _ => False end.
(** choices and constants: numbers in scientific notation become numbers, everything else stays *)
Inductive understood : pyval -> pyval -> Prop :=
| u_number : forall s c f, valid c -> simple c -> written s c -> nearest (fst (sci_value c)) (snd (sci_value c)) f -> understood (VStr s) (VFloat f)
| u_other : forall v, (forall s c, v = VStr s -> valid c -> simple c -> ~ written s c) -> understood v v.
(** bounds of floats: numbers, or texts of numbers in any scientific notation *)
Definition numeral (v : pyval) : Prop :=
  match v with VFloat _ => True | VInt _ => ~ huge v | VStr s => exists c, valid c /\ written s c | _ => False end.
Inductive as_float : pyval -> fl -> Prop :=
| af_float : forall f, as_float (VFloat f) f
| af_int : forall z x, nearest z 1 (FZ x) -> as_float (VInt z) (FZ x)
| af_text : forall s c f, valid c -> written s c -> nearest (fst (sci_value c)) (snd (sci_value c)) f -> as_float (VStr s) f.
(** bounds of integers: [v] says that it is [n] *)
Inductive says : pyval -> Z -> Prop :=
| sy_int : forall n, (Z.abs n <= 2 ^ 53)%Z -> says (VInt n) n
| sy_text : forall s c n, valid c -> simple c -> written s c -> (fst (sci_value c) = snd (sci_value c) * n)%Z -> (Z.abs n <= 2 ^ 53)%Z -> says (VStr s) n.

(** ** Dictionaries *)
(** [s] is the word [t], possibly with capital letters *)
Definition same_letter (c d : ascii) : Prop := c = d \/ exists n, (n < 26)%nat /\ c = ascii_of_nat (65 + n) /\ d = ascii_of_nat (97 + n).
Fixpoint spells (s t : string) : Prop :=
  match s, t with
  | EmptyString, EmptyString => True
  | String c s', String d t' => same_letter c d /\ spells s' t'
  | _, _ => False
  end.
(** the type written in the details is one of these words *)
Definition type_is (ts : list string) (d : dict) : Prop := exists s t, lookup "type" d = Some (VStr s) /\ In t ts /\ spells s t.
(** the same but for the entries [ks] *)
Definition agree (ks : list string) (d d' : dict) : Prop := forall k, ~ In k ks -> lookup k d' = lookup k d.
(** an optional entry *)
Definition entry_rel (R : pyval -> pyval -> Prop) (k : string) (d d' : dict) : Prop :=
  match lookup k d, lookup k d' with Some v, Some w => R v w | None, None => True | _, _ => False end.
Definition float_of (v w : pyval) : Prop := exists f, w = VFloat f /\ as_float v f.
Definition int_of (v w : pyval) : Prop := exists n, w = VInt n /\ says v n.
(** a text in the form of the documentation *)
Definition e_text (v : pyval) : Prop := exists s c, v = VStr s /\ valid c /\ simple c /\ written s c.
(** a space inside a dictionary, and a dictionary that is a space itself *)
Definition wrapped (d : dict) : dict := [("pipeline_space", VDict d)].
Definition top_space (d : dict) : Prop := forall v, d <> [("pipeline_space", v)].
(** errors that the user sees as errors of the search space *)
Definition caught (e : exn) : Prop := e = KeyError \/ e = TypeError \/ e = ValueError.
(** the integer [w] has the value of [v] (as a double, if [v] was not an integer already) *)
Definition kept_int (v w : pyval) : Prop :=
  w = v /\ (exists n, v = VInt n) \/ w = v /\ (exists b, v = VBool b) \/ exists n, w = VInt n /\ (numeral v -> as_float v (fl_of_Z n)).
