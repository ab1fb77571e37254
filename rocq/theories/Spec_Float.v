(** Vocabulary for the statements about machine arithmetic. *)

From Coq Require Import Reals ZArith.
From Flocq Require Import Core.
From Verif Require Import Model_Num Model_Kernels Model_Float.
Local Open Scope R_scope.

(** A machine number is one that rounding leaves alone. *)
Definition machine (F : arith) (x : R) : Prop := rnd F x = x.

Definition machine_params (F : arith) (p : DiffmahParams R) : Prop :=
  machine F (logm0 p) /\ machine F (logtc p) /\ machine F (early_index p) /\
  machine F (late_index p) /\ machine F (t_peak p).


(** What is asked of an implementation: rounding never reverses an order, returns
    machine numbers, knows 0 and 1, and numbers come with both signs.  The library
    functions return machine numbers, do not reverse the order of their arguments
    and stay in the range of the exact function.  Every IEEE rounding mode and
    every monotone library qualifies. *)
Record ordered_arith (F : arith) : Prop := {
  oa_mono : forall x y, x <= y -> rnd F x <= rnd F y;
  oa_idem : forall x, machine F (rnd F x);
  oa_zero : machine F 0;
  oa_one : machine F 1;
  oa_neg : forall x, machine F x -> machine F (- x);
  oa_logistic : forall x, 0 <= lib_logistic F x <= 1 /\ machine F (lib_logistic F x);
  oa_logistic_mono : forall x y, x <= y -> lib_logistic F x <= lib_logistic F y;
  oa_log10 : forall x, machine F (lib_log10 F x);
  oa_log10_mono : forall x y, 0 < x -> x <= y -> lib_log10 F x <= lib_log10 F y;
  oa_pow10 : forall x, 0 <= lib_pow10 F x /\ machine F (lib_pow10 F x);
  oa_pow10_mono : forall x y, x <= y -> lib_pow10 F x <= lib_pow10 F y
}.

(** The log-mass and the accretion rate the public functions return on machine
    numbers, with the constant [lgt0] as the caller passes it. *)
Definition fl_log_mah (F : arith) (p : DiffmahParams R) (t lgt0 : R) : R :=
  @logmh_at_t_obs R (Num_fl F) p t lgt0.

Definition fl_singlehalo (F : arith) (p : DiffmahParams R) (ts : list R) (lgt0 : R)
  : list R * list R :=
  @mah_singlehalo R (Num_fl F) p ts lgt0.

(** Between two numbers, ends included. *)
Definition within (lo x hi : R) : Prop := lo <= x <= hi.

(** Round-to-nearest arithmetic with [prec] bits whose library is order preserving
    and accurate: sigmoid and log10 within four units of rounding, powers of ten
    within one per cent. *)
Record faithful (emin prec : Z) (F : arith) : Prop := {
  fa_ordered : ordered_arith F;
  fa_rnd : forall x, rnd F x = rne emin prec x;
  fa_logistic : forall x,
    Rabs (lib_logistic F x - logistic x) <= 4 * bpow radix2 (- prec);
  fa_log10 : forall x, 0 < x ->
    Rabs (lib_log10 F x - log10 x) <= 4 * bpow radix2 (- prec) * Rmax 1 (Rabs (log10 x));
  fa_pow10 : forall x, -30 <= x <= 30 ->
    Rabs (lib_pow10 F x - pow10 x) <= pow10 x / 100
}.

(** Parameters within the closed bounds. *)
Definition closed_legal (p : DiffmahParams R) : Prop :=
  within 0 (logm0 p) 17 /\ within (-1) (logtc p) 1 /\
  within 0 (late_index p) 5 /\ within (late_index p) (early_index p) 10 /\
  within (1 / 1000) (t_peak p) 20.
