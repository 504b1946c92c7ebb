(** Floating-point values idealised as real numbers extended with the two
    infinities and NaN.  Rounding is not modelled: finite arithmetic is exact
    real arithmetic.  The special cases follow IEEE 754 / CPython. *)
From Coq Require Export Reals Lra.
From Verif Require Export Base.
Local Open Scope R_scope.

Inductive ext : Type := Fin (r : R) | PInf | NInf | NaN.

(** Comparisons on reals as booleans. *)
Definition Rltb (a b : R) : bool := if Rlt_dec a b then true else false.
Definition Rleb (a b : R) : bool := if Rle_dec a b then true else false.
Definition Reqb (a b : R) : bool := if Req_EM_T a b then true else false.

(** Python's [x % 1 == 0] on floats. *)
Definition is_intb (x : R) : bool := Reqb (frac_part x) 0.

Definition eopp (x : ext) : ext :=
  match x with Fin a => Fin (- a) | PInf => NInf | NInf => PInf | NaN => NaN end.

Definition eadd (x y : ext) : ext :=
  match x, y with
  | NaN, _ | _, NaN => NaN
  | Fin a, Fin b => Fin (a + b)
  | PInf, NInf | NInf, PInf => NaN
  | PInf, _ | _, PInf => PInf
  | NInf, _ | _, NInf => NInf
  end.

Definition esub (x y : ext) : ext := eadd x (eopp y).

(** Python's [x < y] on floats: false as soon as a NaN is involved. *)
Definition eltb (x y : ext) : bool :=
  match x, y with
  | NaN, _ | _, NaN => false
  | Fin a, Fin b => Rltb a b
  | NInf, NInf => false
  | NInf, _ => true
  | _, NInf => false
  | PInf, _ => false
  | _, PInf => true
  end.

(** Python's [x == y] on floats. *)
Definition eeqb (x y : ext) : bool :=
  match x, y with
  | Fin a, Fin b => Reqb a b
  | PInf, PInf | NInf, NInf => true
  | _, _ => false
  end.

Definition eisinf (x : ext) : bool :=
  match x with PInf | NInf => true | _ => false end.
Definition eisnan (x : ext) : bool :=
  match x with NaN => true | _ => false end.

(** [math.exp] on an extended value (no overflow: reals are unbounded). *)
Definition eexp (x : ext) : ext :=
  match x with
  | Fin a => Fin (exp a) | PInf => PInf | NInf => Fin 0 | NaN => NaN
  end.

(** [math.log] on an extended value: raises ValueError on non-positive
    arguments. *)
Definition elog (x : ext) : res ext :=
  match x with
  | Fin a => if Rltb 0 a then Ok (Fin (ln a)) else Err ValueError
  | PInf => Ok PInf
  | NInf => Err ValueError
  | NaN => Ok NaN
  end.

(** [math.log] on a finite float. *)
Definition plog (a : R) : res R :=
  if Rltb 0 a then Ok (ln a) else Err ValueError.

(** Sum of a list of reals: Python's [sum]. *)
Definition Rsum (l : list R) : R := fold_right Rplus 0 l.

(** The probability (density) denoted by a log value; used in specifications
    only. *)
Definition lexp (x : ext) : R :=
  match x with Fin a => exp a | _ => 0 end.
