(** Rounded arithmetic: the numeric code read on machine numbers.

    The kernels of diffmah are written over the class [Num] (Model_Num.v).  Here
    the class is instantiated with rounded real arithmetic: every operation
    returns the rounding of the exact result, and the elementary functions are
    those of the numerical library.

    Two readings: [Num_fl] on finite numbers without an upper exponent limit, and
    [Num_xfl] with infinities, NaN and overflow.

    Simplifications: every operation is rounded on its own (no fused multiply-add,
    no reassociation), the sign of zero is not kept, and numbers below the smallest
    normal are kept (no flush to zero). *)

From Coq Require Import Reals ZArith.
From Flocq Require Import Core.
From Verif Require Import Model_Num.
Local Open Scope R_scope.

(** An implementation of arithmetic: how results are rounded, and the functions
    the numerical library supplies for jax.nn.sigmoid, jnp.log, jnp.log10,
    [10**x] and jnp.sqrt. *)
Record arith : Type := mkArith {
  rnd : R -> R;
  lib_logistic : R -> R;
  lib_log : R -> R;
  lib_log10 : R -> R;
  lib_pow10 : R -> R;
  lib_sqrt : R -> R
}.

(** The numeric class at an implementation.  Python float constants are rounded
    when they enter an array computation. *)
Definition Num_fl (F : arith) : Num R := {|
  nconst := rnd F;
  nadd := fun x y => rnd F (x + y);
  nsub := fun x y => rnd F (x - y);
  nmul := fun x y => rnd F (x * y);
  ndiv := fun x y => rnd F (x / y);
  nlogistic := lib_logistic F;
  nlog := lib_log F;
  nlog10 := lib_log10 F;
  npow10 := lib_pow10 F;
  nsqrt := lib_sqrt F;
  nltb := Rltb;
  nleb := Rleb
|}.

(** Overflow: a rounded result beyond the largest finite number is infinite. *)
Definition overflow (big r : R) : xr :=
  if Rltb big r then PInf else if Rltb r (- big) then MInf else Fin r.

Definition xround (F : arith) (big : R) (x : xr) : xr :=
  match x with Fin r => overflow big (rnd F r) | _ => x end.

(** A library function at a finite argument, and the exact function's limits at the
    special values. *)
Definition xlib (big : R) (lib : R -> R) (special : xr -> xr) (x : xr) : xr :=
  match x with Fin r => overflow big (lib r) | _ => special x end.

(** The logarithms are -inf at zero and NaN below. *)
Definition xliblog (big : R) (lib : R -> R) (special : xr -> xr) (x : xr) : xr :=
  match x with
  | Fin r => if Rltb 0 r then overflow big (lib r) else special x
  | _ => special x
  end.

(** The numeric class with rounding, overflow, infinities and NaN. *)
Definition Num_xfl (F : arith) (big : R) : Num xr := {|
  nconst := fun r => xround F big (Fin r);
  nadd := fun x y => xround F big (xadd x y);
  nsub := fun x y => xround F big (xsub x y);
  nmul := fun x y => xround F big (xmul x y);
  ndiv := fun x y => xround F big (xdiv x y);
  nlogistic := xlib big (lib_logistic F) xlogistic;
  nlog := xliblog big (lib_log F) (xlog_gen ln);
  nlog10 := xliblog big (lib_log10 F) (xlog_gen log10);
  npow10 := xlib big (lib_pow10 F) xpow10;
  nsqrt := fun x =>
    match x with
    | Fin r => if Rleb 0 r then overflow big (lib_sqrt F r) else NaN
    | _ => xsqrt x
    end;
  nltb := xltb;
  nleb := xleb
|}.

(** IEEE-754 round to nearest, ties to even, with [prec] significand bits and
    smallest positive number [2^emin]. *)
Definition rne (emin prec : Z) : R -> R :=
  round radix2 (FLT_exp emin prec) ZnearestE.

(** An IEEE format whose library functions are correctly rounded. *)
Definition ieee (emin prec : Z) : arith := {|
  rnd := rne emin prec;
  lib_logistic := fun x => rne emin prec (logistic x);
  lib_log := fun x => rne emin prec (ln x);
  lib_log10 := fun x => rne emin prec (log10 x);
  lib_pow10 := fun x => rne emin prec (pow10 x);
  lib_sqrt := fun x => rne emin prec (sqrt x)
|}.

(** jax's default float32, and float64, with their largest finite numbers. *)
Definition binary32 : arith := ieee (-149) 24.
Definition big32 : R := (bpow radix2 24 - 1) * bpow radix2 104.
Definition binary64 : arith := ieee (-1074) 53.
Definition big64 : R := (bpow radix2 53 - 1) * bpow radix2 971.
