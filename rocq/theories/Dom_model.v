(** Numeric domains (neps/search_spaces/domain.py).

    The arithmetic is a parameter: [arith T] lists the operations on numbers that the code
    uses.  Two instances: [Qar], exact arithmetic with oracles for log and exp, and [Bar],
    IEEE arithmetic (Coq's executable specification, SpecFloat), of any precision.

    Tensors are handled element by element; shapes only in [translate].  Devices and dtypes
    are not modelled, except that a domain with integer bounds truncates its values to int64.
    Python integers are exact. *)
From Verif Require Export Py.
From Coq Require Export QArith Qround SpecFloat.
Open Scope nat_scope.
Local Notation length := List.length.

Record arith (T : Type) : Type := mkArith {
  aZ : Z -> T;
  aadd : T -> T -> T; asub : T -> T -> T; amul : T -> T -> T; adiv : T -> T -> T;
  afloor : T -> T;          (* torch.floor *)
  arint : T -> T;           (* torch.round, Python's round: half to even *)
  atrunc : T -> T;          (* .type(torch.int64) of a float tensor *)
  aln : T -> T; aexp : T -> T;
  aeqb : T -> T -> bool; altb : T -> T -> bool;
  aint : T -> option Z      (* int(x); None: raises *)
}.
Arguments aZ {T} a. Arguments aadd {T} a. Arguments asub {T} a. Arguments amul {T} a.
Arguments adiv {T} a. Arguments afloor {T} a. Arguments arint {T} a. Arguments atrunc {T} a.
Arguments aln {T} a. Arguments aexp {T} a. Arguments aeqb {T} a. Arguments altb {T} a.
Arguments aint {T} a.

(** ** Exact arithmetic.  [None] is NaN; simplification: a number different from zero divided by
    zero is NaN too (an infinity in the code), and so is the logarithm of zero. *)
Definition rint_q (x : Q) : Z :=
  let f := Qfloor x in
  match Qcompare (x - inject_Z f) (1 # 2) with
  | Lt => f
  | Gt => (f + 1)%Z
  | Eq => if Z.even f then f else (f + 1)%Z
  end.
Definition trunc_q (x : Q) : Z := if Qle_bool 0 x then Qfloor x else (- Qfloor (- x)%Q)%Z.

Definition lift2 (f : Q -> Q -> Q) (x y : option Q) : option Q :=
  match x, y with Some a, Some b => Some (f a b) | _, _ => None end.

Definition Qar (lnf expf : Q -> Q) : arith (option Q) := {|
  aZ := fun z => Some (inject_Z z);
  aadd := lift2 Qplus; asub := lift2 Qminus; amul := lift2 Qmult;
  adiv := fun x y => match x, y with
                     | Some a, Some b => if Qeq_bool b 0 then None else Some (a / b)%Q
                     | _, _ => None
                     end;
  afloor := option_map (fun x => inject_Z (Qfloor x));
  arint := option_map (fun x => inject_Z (rint_q x));
  atrunc := option_map (fun x => inject_Z (trunc_q x));
  aln := fun x => match x with
                  | Some a => if Qle_bool a 0 then None else Some (lnf a)
                  | None => None
                  end;
  aexp := option_map expf;
  aeqb := fun x y => match x, y with Some a, Some b => Qeq_bool a b | _, _ => false end;
  altb := fun x y => match x, y with Some a, Some b => negb (Qle_bool b a) | _, _ => false end;
  aint := option_map trunc_q |}.

(** ** IEEE arithmetic with [prec] bits and exponents below [emax]: binary64 is 53, 1024;
    binary32 is 24, 128.  log and exp are oracles. *)
Section IEEE.
  Variables (prec emax : Z) (lnf expf : spec_float -> spec_float).

  Definition sf_of_Z (z : Z) : spec_float := binary_normalize prec emax z 0 false.
  (** A finite float as a rational. *)
  Definition sf_Q (x : spec_float) : option Q :=
    match x with
    | S754_zero _ => Some 0%Q
    | S754_finite s m e =>
        let q := match e with
                 | Z0 => inject_Z (Z.pos m)
                 | Zpos p => inject_Z (Z.pos m * Z.pow_pos 2 p)
                 | Zneg p => Z.pos m # (Pos.pow 2 p)
                 end in
        Some (if s then (- q)%Q else q)
    | _ => None
    end.
  (** Functions to the integers are exact on floats. *)
  Definition sf_via (f : Q -> Z) (x : spec_float) : spec_float :=
    match sf_Q x with Some q => sf_of_Z (f q) | None => x end.

  Definition Bar : arith spec_float := {|
    aZ := sf_of_Z;
    aadd := SFadd prec emax; asub := SFsub prec emax; amul := SFmul prec emax;
    adiv := SFdiv prec emax;
    afloor := sf_via Qfloor; arint := sf_via rint_q; atrunc := sf_via trunc_q;
    aln := lnf; aexp := expf;
    aeqb := SFeqb; altb := SFltb;
    aint := fun x => option_map trunc_q (sf_Q x) |}.
End IEEE.

(** The bounds: Python integers or floats. *)
Inductive bounds (T : Type) : Type := BInt (l u : Z) | BFloat (l u : T).
Arguments BInt {T} l u. Arguments BFloat {T} l u.

(** The fields of a Domain (domain.py:71-104). *)
Record domain (T : Type) : Type := mkD {
  d_bounds : bounds T;
  d_round : bool;
  d_log : option (T * T);
  d_bins : option Z;
  d_cat : bool;
  d_unit : bool;             (* is_unit_float *)
  d_card : option Z }.       (* cardinality *)
Arguments mkD {T}. Arguments d_bounds {T} d. Arguments d_round {T} d. Arguments d_log {T} d.
Arguments d_bins {T} d. Arguments d_cat {T} d. Arguments d_unit {T} d. Arguments d_card {T} d.

Section Domain.
  Context {T : Type} (A : arith T).

  Definition is_int (b : bounds T) : bool := match b with BInt _ _ => true | BFloat _ _ => false end.
  Definition b_lower (b : bounds T) : T := match b with BInt l _ => aZ A l | BFloat l _ => l end.
  Definition b_upper (b : bounds T) : T := match b with BInt _ u => aZ A u | BFloat _ u => u end.
  (** [upper - lower]: of integers exact. *)
  Definition b_width (b : bounds T) : T :=
    match b with BInt l u => aZ A (u - l) | BFloat l u => asub A u l end.
  Definition d_lower (d : domain T) : T := b_lower (d_bounds d).
  Definition d_upper (d : domain T) : T := b_upper (d_bounds d).

  (** [self.lower == 0 and self.upper == 1] *)
  Definition zero_one (b : bounds T) : bool :=
    match b with
    | BInt l u => Z.eqb l 0 && Z.eqb u 1
    | BFloat l u => aeqb A l (aZ A 0) && aeqb A u (aZ A 1)
    end.

  (** domain.py:117-129: the cardinality. *)
  Definition cardinality (b : bounds T) (round : bool) (bins : option Z) (cat : bool) : res (option Z) :=
    match bins with
    | Some (Z.pos n) => Ok (Some (Z.pos n))
    | Some (Z.neg n) => Ok (Some (Z.neg n))
    | _ =>
        if round then
          match b with
          | BInt l u => Ok (Some (u - l + 1)%Z)
          | BFloat l u =>
              match aint A (aadd A (asub A u l) (aZ A 1)) with
              | Some n => Ok (Some n)
              | None => Err ValueError
              end
          end
        else if cat then Err ValueError else Ok None
    end.

  (** domain.py:106-138 (__post_init__).  The value decoded from 0.5 at 134-136 is not used. *)
  Definition post_init (b : bounds T) (round : bool) (log : option (T * T)) (bins : option Z) (cat : bool)
    : res (domain T) :=
    bind (cardinality b round bins cat) (fun card =>
    Ok (mkD b round log bins cat (zero_one b && is_int b && negb round) card)).

  (** [(math.log(lower), math.log(upper)) if log else None]: math.log raises ValueError unless
      its argument is positive. *)
  Definition log_of (l u : T) (log : bool) : res (option (T * T)) :=
    if log then
      if altb A (aZ A 0) l && altb A (aZ A 0) u then Ok (Some (aln A l, aln A u)) else Err ValueError
    else Ok None.

  (** domain.py:141-169 (Domain.floating) *)
  Definition floating (l u : T) (log : bool) (bins : option Z) (cat : bool) : res (domain T) :=
    bind (log_of l u log) (fun lb => post_init (BFloat l u) false lb bins cat).

  (** domain.py:172-200 (Domain.integer) *)
  Definition integer (l u : T) (log : bool) (bins : option Z) (cat : bool) : res (domain T) :=
    match aint A (arint A l), aint A (arint A u) with
    | Some l', Some u' => bind (log_of l u log) (fun lb => post_init (BInt l' u') true lb bins cat)
    | _, _ => Err ValueError
    end.

  (** domain.py:203-216 (Domain.indices) *)
  Definition indices (n : Z) (cat : bool) : res (domain T) :=
    integer (aZ A 0) (aZ A (n - 1)) false None cat.

  (** domain.py:246-247 and 267-268:
      [torch.floor(x * q).clip(0, q - 1) / (q - 1)] *)
  Definition clip (x lo hi : T) : T := if altb A x lo then lo else if altb A hi x then hi else x.
  Definition quantize (q : Z) (x : T) : T :=
    adiv A (clip (afloor A (amul A x (aZ A q))) (aZ A 0) (aZ A (q - 1))) (aZ A (q - 1)).

  (** domain.py:218-249 (Domain.to_unit) *)
  Definition to_unit (d : domain T) (x : T) : T :=
    if d_unit d && match d_card d with None => true | Some _ => false end then x
    else
      let x := match d_log d with
               | Some (l, u) => adiv A (asub A (aln A x) l) (asub A u l)
               | None => adiv A (asub A x (d_lower d)) (b_width (d_bounds d))
               end in
      match d_card d with Some q => quantize q x | None => x end.

  (** [x.type(dtype)], with the domain's preferred dtype *)
  Definition as_type (d : domain T) (x : T) : T :=
    if is_int (d_bounds d) then atrunc A x else x.

  (** domain.py:251-282 (Domain.from_unit), [dtype] not given *)
  Definition from_unit (d : domain T) (x : T) : T :=
    if d_unit d then as_type d x
    else
      let x := match d_card d with Some q => quantize q x | None => x end in
      let x := match d_log d with
               | Some (l, u) => aexp A (aadd A (amul A x (asub A u l)) l)
               | None => aadd A (amul A x (b_width (d_bounds d))) (d_lower d)
               end in
      let x := if d_round d then arint A x else x in
      as_type d x.

  Definition opt_eqb {X} (e : X -> X -> bool) (x y : option X) : bool :=
    match x, y with Some a, Some b => e a b | None, None => true | _, _ => false end.
  Definition pair_eqb (x y : T * T) : bool := aeqb A (fst x) (fst y) && aeqb A (snd x) (snd y).
  (** [a == b] for two Python numbers; of two integers exact. *)
  Definition bounds_eqb (x y : bounds T) : bool :=
    match x, y with
    | BInt l u, BInt l' u' => Z.eqb l l' && Z.eqb u u'
    | _, _ => aeqb A (b_lower x) (b_lower y) && aeqb A (b_upper x) (b_upper y)
    end.

  (** domain.py:307-310 *)
  Definition same_domain (self frm : domain T) : bool :=
    bounds_eqb (d_bounds self) (d_bounds frm) && opt_eqb pair_eqb (d_log self) (d_log frm)
    && opt_eqb Z.eqb (d_card self) (d_card frm).
  (** domain.py:324 *)
  Definition log_lift (self frm : domain T) : bool :=
    match d_log frm with
    | Some lb => pair_eqb (d_lower self, d_upper self) lb
    | None => false
    end && match d_card self with None => true | Some _ => false end.

  (** domain.py:284-332 (Domain.cast), [dtype] not given *)
  Definition cast (self frm : domain T) (x : T) : T :=
    if same_domain self frm then as_type self (if d_round self then arint A x else x)
    else if d_unit frm then from_unit self x
    else if log_lift self frm then
      as_type self (if d_round self then arint A (aexp A x) else aexp A x)
    else from_unit self (to_unit frm x).

  (** domain.py:339-398 (Domain.translate).  A tensor of shape (n, ndims) is the list of its
      rows; [ndims] is given as it is not determined by an empty list.  A single domain
      [inl] or one for each column [inr]. *)
  Definition spread (ndims : nat) (d : domain T + list (domain T)) : list (domain T) :=
    match d with inl d => repeat d ndims | inr l => l end.
  Definition translate (ndims : nat) (x : list (list T)) (frm to : domain T + list (domain T))
    : res (list (list T)) :=
    match frm, to with
    | inl f, inl t => Ok (map (map (cast t f)) x)
    | _, _ =>
        let fs := spread ndims frm in
        let ts := spread ndims to in
        if negb (Nat.eqb (length fs) ndims) then Err ValueError
        else if negb (Nat.eqb (length ts) ndims) then Err ValueError
        else Ok (map (fun row => map (fun p => cast (snd (snd p)) (fst (snd p)) (fst p))
                                     (combine row (combine fs ts))) x)
    end.

  (** domain.py:423-436 (Domain.as_integer_domain) *)
  Definition as_integer_domain (d : domain T) : res (domain T) :=
    match d_card d with None => Err ValueError | Some n => indices n (d_cat d) end.

  (** domain.py:439 (UNIT_FLOAT_DOMAIN), as the constructor leaves it *)
  Definition unit_float_domain : domain T :=
    mkD (BFloat (aZ A 0) (aZ A 1)) false None None false false None.
End Domain.
