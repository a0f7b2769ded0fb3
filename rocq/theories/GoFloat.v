(** Semantics of Go's [float64].

    The model functions that mix integers and floats are written once over the
    record [Flt] of floating-point operations and are instantiated three times:
    - [RFlt]: exact real arithmetic;
    - [XFlt]: exact real arithmetic with infinities and NaN;
    - [BFlt]: IEEE-754 binary64, round to nearest even, from Flocq. *)
From Coq Require Import ZArith Bool Reals.
From Flocq Require Import Core IEEE754.BinarySingleNaN.
From Verif Require Import GoInt.

Class Flt : Type := {
  F : Type;
  (** conversion [float64(n)] of an integer *)
  fofZ : Z -> F;
  (** the constant n/d of a Go literal.  In [BFlt] it is correctly rounded
      provided n and d are below 2^53, which holds of every use. *)
  fconst : Z -> positive -> F;
  fadd : F -> F -> F;
  fsub : F -> F -> F;
  fmul : F -> F -> F;
  fdiv : F -> F -> F;
  fneg : F -> F;
  fabs : F -> F;
  fsqrt : F -> F;
  (** [<], [<=], [==]; false when an operand is NaN *)
  flt : F -> F -> bool;
  fle : F -> F -> bool;
  feq : F -> F -> bool;
  (** math.Floor, math.Trunc *)
  ffloor : F -> F;
  ftrunc : F -> F;
  (** [math.Signbit] *)
  fsignbit : F -> bool;
  (** conversion [int64(x)]: truncation; [None] when the truncated value does
      not fit (the Go specification leaves the result unspecified) *)
  fint64 : F -> option Z;
  (** neither infinite nor NaN: the negation of [math.IsInf(x,0) || math.IsNaN(x)] *)
  ffin : F -> bool
}.

Declare Scope flt_scope.
Delimit Scope flt_scope with flt.
Bind Scope flt_scope with F.
Notation "a + b" := (fadd a b) : flt_scope.
Notation "a - b" := (fsub a b) : flt_scope.
Notation "a * b" := (fmul a b) : flt_scope.
Notation "a / b" := (fdiv a b) : flt_scope.
Notation "- a" := (fneg a) : flt_scope.
Notation "a <? b" := (flt a b) : flt_scope.
Notation "a <=? b" := (fle a b) : flt_scope.
Notation "a =? b" := (feq a b) : flt_scope.

(** ** Exact semantics *)

Definition Rint64 (x : R) : option Z :=
  if in64b (Ztrunc x) then Some (Ztrunc x) else None.

#[export] Instance RFlt : Flt := {|
  F := R;
  fofZ := IZR;
  fconst n d := (IZR n / IZR (Zpos d))%R;
  fadd := Rplus; fsub := Rminus; fmul := Rmult; fdiv := Rdiv;
  fneg := Ropp; fabs := Rabs; fsqrt := R_sqrt.sqrt;
  flt := Rlt_bool; fle := Rle_bool; feq := Req_bool;
  ffloor x := IZR (Zfloor x);
  ftrunc x := IZR (Ztrunc x);
  fsignbit x := Rlt_bool x 0;
  fint64 := Rint64;
  ffin _ := true
|}.

(** ** Exact semantics with infinities and NaN

    Exact real arithmetic extended with the exceptional values of IEEE-754, for
    code whose behaviour depends on division by zero.  Zero is unsigned, so the
    sign of x/0 is that of x. *)

Inductive xreal : Type := Fin (r : R) | XInf (neg : bool) | XNaN.

Definition xadd (a b : xreal) : xreal :=
  match a, b with
  | Fin x, Fin y => Fin (x + y)
  | XNaN, _ | _, XNaN => XNaN
  | XInf s, XInf t => if Bool.eqb s t then XInf s else XNaN
  | XInf s, Fin _ => XInf s
  | Fin _, XInf s => XInf s
  end.
Definition xneg (a : xreal) : xreal :=
  match a with Fin x => Fin (- x) | XInf s => XInf (negb s) | XNaN => XNaN end.
Definition xmul (a b : xreal) : xreal :=
  match a, b with
  | Fin x, Fin y => Fin (x * y)
  | XNaN, _ | _, XNaN => XNaN
  | XInf s, XInf t => XInf (xorb s t)
  | XInf s, Fin y | Fin y, XInf s =>
      if Req_bool y 0 then XNaN else XInf (xorb s (Rlt_bool y 0))
  end.
Definition xdiv (a b : xreal) : xreal :=
  match a, b with
  | Fin x, Fin y =>
      if Req_bool y 0 then (if Req_bool x 0 then XNaN else XInf (Rlt_bool x 0)) else Fin (x / y)
  | XNaN, _ | _, XNaN => XNaN
  | XInf _, XInf _ => XNaN
  | XInf s, Fin y => XInf (xorb s (Rlt_bool y 0))
  | Fin _, XInf _ => Fin 0
  end.
Definition xabs (a : xreal) : xreal :=
  match a with Fin x => Fin (Rabs x) | XInf _ => XInf false | XNaN => XNaN end.
Definition xsqrt (a : xreal) : xreal :=
  match a with
  | Fin x => if Rlt_bool x 0 then XNaN else Fin (R_sqrt.sqrt x)
  | XInf false => XInf false
  | _ => XNaN
  end.
Definition xlt (a b : xreal) : bool :=
  match a, b with
  | Fin x, Fin y => Rlt_bool x y
  | XNaN, _ | _, XNaN => false
  | XInf s, XInf t => s && negb t
  | XInf s, Fin _ => s
  | Fin _, XInf t => negb t
  end.
Definition xeq (a b : xreal) : bool :=
  match a, b with
  | Fin x, Fin y => Req_bool x y
  | XInf s, XInf t => Bool.eqb s t
  | _, _ => false
  end.
Definition xle (a b : xreal) : bool := xlt a b || xeq a b.
Definition xlift (f : R -> R) (a : xreal) : xreal := match a with Fin x => Fin (f x) | _ => a end.

Definition XFlt : Flt := {|
  F := xreal;
  fofZ n := Fin (IZR n);
  fconst n d := Fin (IZR n / IZR (Zpos d));
  fadd := xadd; fsub a b := xadd a (xneg b); fmul := xmul; fdiv := xdiv;
  fneg := xneg; fabs := xabs; fsqrt := xsqrt;
  flt := xlt; fle := xle; feq := xeq;
  ffloor := xlift (fun x => IZR (Zfloor x));
  ftrunc := xlift (fun x => IZR (Ztrunc x));
  fsignbit a := match a with Fin x => Rlt_bool x 0 | XInf s => s | XNaN => false end;
  fint64 a := match a with Fin x => Rint64 x | _ => None end;
  ffin a := match a with Fin _ => true | _ => false end
|}.

(** ** IEEE-754 binary64 *)

#[export] Instance prec64 : Prec_gt_0 53 := eq_refl _.
#[export] Instance emax64 : Prec_lt_emax 53 1024 := eq_refl _.

Definition float64 : Type := binary_float 53 1024.

Definition b64_ofZ (n : Z) : float64 := binary_normalize 53 1024 _ _ mode_NE n 0 false.

Definition b64_int64 (x : float64) : option Z :=
  match x with
  | B754_zero _ => Some 0%Z
  | B754_finite _ _ _ _ => if in64b (Btrunc x) then Some (Btrunc x) else None
  | _ => None
  end.

Definition BFlt : Flt := {|
  F := float64;
  fofZ := b64_ofZ;
  fconst n d := Bdiv mode_NE (b64_ofZ n) (b64_ofZ (Zpos d));
  fadd := Bplus mode_NE; fsub := Bminus mode_NE;
  fmul := Bmult mode_NE; fdiv := Bdiv mode_NE;
  fneg := Bopp; fabs := Babs; fsqrt := Bsqrt mode_NE;
  flt := Bltb; fle := Bleb; feq := Beqb;
  ffloor := Bnearbyint mode_DN;
  ftrunc := Bnearbyint mode_ZR;
  fsignbit := Bsign;
  fint64 := b64_int64;
  ffin := is_finite
|}.
