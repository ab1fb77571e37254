(** Specification vocabulary for the fitting properties. *)

From Coq Require Import Reals List Arith Bool.
From Verif Require Import Model_Num Model_Base Model_Kernels Model_Adam Model_Fitter Spec_Kernels.
Import ListNotations.
Local Open Scope R_scope.

(** ** Iterative optimisers *)

(** The points visited by an iterative optimiser from a state: the k-th state
    is the update of the previous one with the gradient at the previous point. *)
Fixpoint state_at {P G S} (opt : optimizer P G S) (lg : P -> xr * G) (st0 : S) (k : nat) : S :=
  match k with
  | O => st0
  | Datatypes.S k' =>
      let st := state_at opt lg st0 k' in
      opt_update opt k' (snd (lg (get_params opt st))) st
  end.

Definition visited {P G S} (opt : optimizer P G S) (lg : P -> xr * G) (p : P) (k : nat) : P :=
  get_params opt (state_at opt lg (opt_init opt p) k).

(** [b] is the first of the best among the first [n] losses. *)
Definition first_best (L : nat -> xr) (n b : nat) : Prop :=
  (b < n)%nat /\ exists rb, L b = Fin rb /\
  (forall k rk, (k < n)%nat -> L k = Fin rk -> rb <= rk) /\
  (forall k rk, (k < b)%nat -> L k = Fin rk -> rb < rk).

(** A point where the parameters, the loss and the gradients are all finite. *)
Definition clean {P G} (pfinite : P -> bool) (gfinite : G -> bool) (lg : P -> xr * G) (p : P)
  : Prop :=
  pfinite p = true /\ finite (fst (lg p)) /\ gfinite (snd (lg p)) = true.

(** A clean point whose loss is not below the tolerance. *)
Definition carries_on {P G} pfinite gfinite (lg : P -> xr * G) (tol : xr) (p : P) : Prop :=
  clean pfinite gfinite lg p /\ xltb (fst (lg p)) tol = false.

(** ** Fit targets *)

(** Log-mass used by the fitter for a simulated mass [m]: masses at or below
    the threshold [thr] are lifted to 1e-7 above it. *)
Definition floored_logmass (thr m : R) : R :=
  if Rle_dec m thr then log10 (1 / 10000000 + thr) else log10 m.

(** [lgm_min] as a threshold: minus infinity, or the log-mass [g]. *)
Definition lgm_arg (lgm_min : option R) : xr :=
  match lgm_min with None => MInf | Some g => Fin g end.
Definition mass_floor (lgm_min : option R) : R :=
  match lgm_min with None => 0 | Some g => pow10 g end.
Definition above (lgm_min : option R) (x : R) : Prop :=
  match lgm_min with None => True | Some g => g < x end.

(** [sub] is the subsequence of the entries of [l] that satisfy [keep]. *)
Inductive subsequence_of {A} (keep : A -> Prop) : list A -> list A -> Prop :=
| sub_nil : subsequence_of keep [] []
| sub_keep : forall a l s, keep a -> subsequence_of keep l s -> subsequence_of keep (a :: l) (a :: s)
| sub_drop : forall a l s, ~ keep a -> subsequence_of keep l s -> subsequence_of keep (a :: l) s.

(** [r] is the running maximum of [l]. *)
Definition running_max (l r : list R) : Prop :=
  length r = length l /\
  forall i v, nth_error r i = Some v ->
    (exists j, (j <= i)%nat /\ nth_error l j = Some v) /\
    (forall j w, (j <= i)%nat -> nth_error l j = Some w -> w <= v).

Definition last_is {A} (l : list A) (a : A) : Prop := exists l', l = l' ++ [a].

(** A cast that rounds finite numbers with [c]. *)
Definition casts (f4 : xr -> xr) (c : R -> R) : Prop := forall r, f4 (Fin r) = Fin (c r).

(** Finite varied parameters. *)
Definition inject_v (v : Varied R) : Varied xr :=
  mkVaried (Fin (v_logm0 v)) (Fin (v_logtc v)) (Fin (v_early v)) (Fin (v_late v)).

(** [n] entries of [r] are strictly below (in the sense of [lt]) its last entry. *)
Definition count_below_last {A} (lt : A -> A -> Prop) (r : list A) (n : nat) : Prop :=
  (r = [] /\ n = 0%nat) \/
  exists top, last_is r top /\ exists s, subsequence_of (fun x => lt x top) r s /\ n = length s.

Definition xlt (x y : xr) : Prop := xltb x y = true.

(** NaN, or a number in the closed interval. *)
Definition nan_or_in (lo hi : R) (x : xr) : Prop := x = NaN \/ exists r, x = Fin r /\ lo <= r <= hi.

(** Closed version of the legal domain, with NaN allowed. *)
Definition within_bounds (p : DiffmahParams xr) : Prop :=
  nan_or_in 0 17 (logm0 p) /\ nan_or_in (-1) 1 (logtc p) /\ nan_or_in (1 / 10) 10 (early_index p) /\
  nan_or_in (1 / 10) 5 (late_index p) /\ nan_or_in (5 / 100) 20 (t_peak p) /\
  (forall e l, early_index p = Fin e -> late_index p = Fin l -> l <= e).

(** The times and log-masses a fit should use: those of the simulated history
    [t], [lm] with log-mass above [l0 - cut] and [lgm_min], and time at least [tmin]. *)
Definition fit_point (l0 cut : R) (lgm_min : option R) (tmin : R) (p : R * R) : Prop :=
  l0 - cut < snd p /\ above lgm_min (snd p) /\ tmin <= fst p.

(** [tp] is the first time at which the history attains, up to the cast [c],
    its final value [l0]. *)
Definition first_attained (c : R -> R) (t lm : list R) (l0 tp : R) : Prop :=
  exists i, nth_error t i = Some tp /\
    (exists x, nth_error lm i = Some x /\ c x = c l0) /\
    (forall j x, (j < i)%nat -> nth_error lm j = Some x -> c x <> c l0).

(** The t_peak a fit should use. *)
Definition wanted_t_peak (c : R -> R) (t lm : list R) (l0 : R) (tpeak_fixed : option R) (tp : R) : Prop :=
  match tpeak_fixed with Some x => tp = x | None => first_attained c t lm l0 tp end.

(** Log-masses the fitter uses for simulated masses [m]. *)
Definition floored (lgm_min : option R) (m : list R) : list R :=
  map (floored_logmass (mass_floor lgm_min)) m.

(** Mean squared difference between the model history [q] and the points. *)
Definition mean_sq_residual (q : DiffmahParams R) (lgt0 : R) (pts : list (R * R)) : R :=
  fold_right Rplus 0
    (map (fun p => (logmh_at_t_obs q (fst p) lgt0 - snd p) * (logmh_at_t_obs q (fst p) lgt0 - snd p)) pts)
  / INR (length pts).

(** What is assumed of single-precision rounding: [c] rounds with a relative
    error below 1/1000 and is idempotent.  Overflow and underflow are ignored. *)
Definition rounding (f4 : xr -> xr) (c : R -> R) : Prop :=
  casts f4 c /\ (forall x, f4 (f4 x) = f4 x) /\ (forall r, Rabs (c r - r) <= Rabs r / 1000).

(** An optimiser whose first iterate is its starting point. *)
Definition starts_at_input {P G S} (adam : R -> optimizer P G S) : Prop :=
  forall s p, get_params (adam s) (opt_init (adam s) p) = p.

(** A minimiser that, when it reports success, returns finite parameters and
    the value of the loss there. *)
Definition honest_minimizer
    (minimize : (Varied xr -> xr) -> (Varied xr -> Varied xr) -> Varied xr -> Varied xr * xr * bool)
  : Prop :=
  forall L g p x f, minimize L g p = (x, f, true) -> (exists w, x = inject_v w) /\ f = L x.

(** [n] successive burns, each starting where the previous one ended: from [p]
    to the end point, its loss (+inf before any burn) and the last burn. *)
Inductive burns {P} (run : P -> res (burn P)) (p : P) : nat -> P -> xr -> option (burn P) -> Prop :=
| burns_none : burns run p 0 p PInf None
| burns_more : forall n p' l f fr, burns run p n p' l f -> run p' = Ok fr ->
    burns run p (Datatypes.S n) (b_params fr) (b_loss fr) (Some fr).
