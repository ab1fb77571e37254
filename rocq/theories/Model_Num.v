(** Numeric semantics shared by the model.

    The numerical Python code is written once, over the class [Num], and read
    at three instances: the reals, the extended reals with IEEE special values,
    and dual numbers (the meaning of [jax.grad]). *)

From Coq Require Import Reals.
Local Open Scope R_scope.

(** The operations used by the jax code.
    [nlogistic] is jax.nn.sigmoid, [nlog] is jax.lax.log / jnp.log,
    [nlog10] is jnp.log10, [npow10 x] is [10**x], [nsqrt] is jnp.sqrt,
    [nltb x y] is [x < y], [nleb x y] is [x <= y]. *)
Class Num (A : Type) := {
  nconst : R -> A;
  nadd : A -> A -> A;
  nsub : A -> A -> A;
  nmul : A -> A -> A;
  ndiv : A -> A -> A;
  nlogistic : A -> A;
  nlog : A -> A;
  nlog10 : A -> A;
  npow10 : A -> A;
  nsqrt : A -> A;
  nltb : A -> A -> bool;
  nleb : A -> A -> bool
}.

Declare Scope num_scope.
Delimit Scope num_scope with num.
Infix "+" := nadd : num_scope.
Infix "-" := nsub : num_scope.
Infix "*" := nmul : num_scope.
Infix "/" := ndiv : num_scope.
Infix "<?" := nltb : num_scope.
Infix "<=?" := nleb : num_scope.
Notation "# r" := (nconst r%R) (at level 1, r at level 0, format "# r") : num_scope.

(** jnp.where on scalars. *)
Definition jwhere {A} (c : bool) (x y : A) : A := if c then x else y.

(** ** Real numbers *)

(** Boolean comparison of reals (decidable by the standard library). *)
Definition Rltb (x y : R) : bool := if Rlt_dec x y then true else false.
Definition Rleb (x y : R) : bool := if Rle_dec x y then true else false.
Definition Reqb (x y : R) : bool := if Req_EM_T x y then true else false.

(** Base-10 logarithm and exponential on the reals. *)
Definition log10 (x : R) : R := ln x / ln 10.
Definition pow10 (x : R) : R := exp (x * ln 10).

(** jax.nn.sigmoid on the reals. *)
Definition logistic (x : R) : R := / (1 + exp (- x)).

#[global] Instance Num_R : Num R := {
  nconst := fun r => r;
  nadd := Rplus;
  nsub := Rminus;
  nmul := Rmult;
  ndiv := Rdiv;
  nlogistic := logistic;
  nlog := ln;
  nlog10 := log10;
  npow10 := pow10;
  nsqrt := sqrt;
  nltb := Rltb;
  nleb := Rleb
}.

(** ** Extended reals: IEEE-754 special values without rounding.

    Simplifications: finite arithmetic is exact and never overflows, and the
    only zero is +0, so [1/0] is [+inf]. Every division by zero in the modelled
    code divides by the result of a subtraction [y - ylo] with [y = ylo], which
    is +0 in round-to-nearest. *)
Inductive xr : Type :=
| Fin (r : R)
| PInf
| MInf
| NaN.

Definition xneg (x : xr) : xr :=
  match x with Fin r => Fin (- r) | PInf => MInf | MInf => PInf | NaN => NaN end.

Definition xadd (x y : xr) : xr :=
  match x, y with
  | NaN, _ | _, NaN => NaN
  | Fin a, Fin b => Fin (a + b)
  | PInf, MInf | MInf, PInf => NaN
  | PInf, _ | _, PInf => PInf
  | MInf, _ | _, MInf => MInf
  end.

Definition xsub (x y : xr) : xr := xadd x (xneg y).

(** Infinity times a number: sign rule, and NaN for zero. *)
Definition xscale_inf (pos : bool) (a : R) : xr :=
  if Reqb a 0 then NaN
  else if Rltb 0 a then (if pos then PInf else MInf)
  else (if pos then MInf else PInf).

Definition xmul (x y : xr) : xr :=
  match x, y with
  | NaN, _ | _, NaN => NaN
  | Fin a, Fin b => Fin (a * b)
  | PInf, Fin b | Fin b, PInf => xscale_inf true b
  | MInf, Fin b | Fin b, MInf => xscale_inf false b
  | PInf, PInf | MInf, MInf => PInf
  | PInf, MInf | MInf, PInf => MInf
  end.

Definition xdiv (x y : xr) : xr :=
  match x, y with
  | NaN, _ | _, NaN => NaN
  | Fin a, Fin b =>
      if Reqb b 0 then
        (if Reqb a 0 then NaN else if Rltb 0 a then PInf else MInf)
      else Fin (a / b)
  | Fin _, _ => Fin 0
  | PInf, Fin b => if Reqb b 0 then PInf else xscale_inf true b
  | MInf, Fin b => if Reqb b 0 then MInf else xscale_inf false b
  | _, _ => NaN
  end.

Definition xlogistic (x : xr) : xr :=
  match x with Fin r => Fin (logistic r) | PInf => Fin 1 | MInf => Fin 0 | NaN => NaN end.

Definition xlog_gen (f : R -> R) (x : xr) : xr :=
  match x with
  | Fin r => if Rltb 0 r then Fin (f r) else if Reqb r 0 then MInf else NaN
  | PInf => PInf
  | MInf => NaN
  | NaN => NaN
  end.

Definition xpow10 (x : xr) : xr :=
  match x with Fin r => Fin (pow10 r) | PInf => PInf | MInf => Fin 0 | NaN => NaN end.

Definition xltb (x y : xr) : bool :=
  match x, y with
  | NaN, _ | _, NaN => false
  | Fin a, Fin b => Rltb a b
  | MInf, MInf => false
  | MInf, _ => true
  | _, PInf => match x with PInf => false | _ => true end
  | _, _ => false
  end.

Definition xleb (x y : xr) : bool :=
  match x, y with
  | NaN, _ | _, NaN => false
  | Fin a, Fin b => Rleb a b
  | MInf, _ | _, PInf => true
  | _, _ => false
  end.

Definition xsqrt (x : xr) : xr :=
  match x with
  | Fin r => if Rleb 0 r then Fin (sqrt r) else NaN
  | PInf => PInf
  | _ => NaN
  end.

#[global] Instance Num_xr : Num xr := {
  nconst := Fin;
  nadd := xadd;
  nsub := xsub;
  nmul := xmul;
  ndiv := xdiv;
  nlogistic := xlogistic;
  nlog := xlog_gen ln;
  nlog10 := xlog_gen log10;
  npow10 := xpow10;
  nsqrt := xsqrt;
  nltb := xltb;
  nleb := xleb
}.

(** ** Dual numbers over any numeric type: value and derivative. *)
Record Dual (A : Type) : Type := mkDual { dval : A; dder : A }.
Arguments mkDual {A} _ _.
Arguments dval {A} _.
Arguments dder {A} _.

Section DualOps.
  Context {A : Type} {N : Num A}.
  Local Open Scope num_scope.

  Definition dconst (r : R) : Dual A := mkDual #r #0.
  Definition dadd (x y : Dual A) := mkDual (dval x + dval y) (dder x + dder y).
  Definition dsub (x y : Dual A) := mkDual (dval x - dval y) (dder x - dder y).
  Definition dmul (x y : Dual A) :=
    mkDual (dval x * dval y) (dder x * dval y + dval x * dder y).
  Definition ddiv (x y : Dual A) :=
    mkDual (dval x / dval y)
      ((dder x * dval y - dval x * dder y) / (dval y * dval y)).
  Definition dlogistic (x : Dual A) :=
    let s := nlogistic (dval x) in mkDual s (s * (#1 - s) * dder x).
  Definition dlog (x : Dual A) := mkDual (nlog (dval x)) (dder x / dval x).
  Definition dlog10 (x : Dual A) :=
    mkDual (nlog10 (dval x)) (dder x / (dval x * #(ln 10))).
  Definition dpow10 (x : Dual A) :=
    let p := npow10 (dval x) in mkDual p (p * #(ln 10) * dder x).
  Definition dsqrt (x : Dual A) :=
    let s := nsqrt (dval x) in mkDual s (dder x / (#2 * s)).
  Definition dltb (x y : Dual A) := dval x <? dval y.
  Definition dleb (x y : Dual A) := dval x <=? dval y.
End DualOps.

#[global] Instance Num_Dual {A} {N : Num A} : Num (Dual A) := {
  nconst := dconst;
  nadd := dadd;
  nsub := dsub;
  nmul := dmul;
  ndiv := ddiv;
  nlogistic := dlogistic;
  nlog := dlog;
  nlog10 := dlog10;
  npow10 := dpow10;
  nsqrt := dsqrt;
  nltb := dltb;
  nleb := dleb
}.

(** [jax.grad] of a scalar function of one argument. *)
Definition grad {A} {N : Num A} (f : Dual A -> Dual A) (x : A) : A :=
  dder (f (mkDual x (nconst 1%R))).

(** A number that does not vary with the differentiated argument. *)
Definition dlift {A} {N : Num A} (x : A) : Dual A := mkDual x (nconst 0%R).
