(** Specification vocabulary for the losses and fitters of single population
    components. *)

From Coq Require Import Reals String List.
From Coquelicot Require Import Coquelicot.
From Verif Require Import Model_Num Model_Base Model_PopBase Model_PopData Model_PopKernels Model_CompFit.
Import ListNotations.
Local Open Scope R_scope.
Local Open Scope string_scope.

(** Mean squared and mean absolute difference of pairs of numbers. *)
Definition mean (l : list R) : R := fold_right Rplus 0 l / INR (length l).
Definition mean_sq (l : list (R * R)) : R := mean (map (fun xy => (fst xy - snd xy) * (fst xy - snd xy)) l).
Definition mean_abs (l : list (R * R)) : R := mean (map (fun xy => Rabs (fst xy - snd xy)) l).

(** Data columns of measured points. *)
Definition columns2 (pts : list (R * R)) : arg R * arg R :=
  (Arr (map fst pts), Arr (map snd pts)).
Definition columns3 (pts : list (R * R * R)) : arg R * arg R * arg R :=
  (Arr (map (fun x => fst (fst x)) pts), Arr (map (fun x => snd (fst x)) pts), Arr (map snd pts)).
Definition columns4 (pts : list (R * R * R * R)) : arg R * arg R * arg R * arg R :=
  (Arr (map (fun x => fst (fst (fst x))) pts), Arr (map (fun x => snd (fst (fst x))) pts),
   Arr (map (fun x => snd (fst x)) pts), Arr (map snd pts)).

(** The density at [x] of a normal distribution of mean [loc] and standard
    deviation [scale], truncated to [lo, hi]. *)
Definition truncated_normal (lo hi loc scale x : R) : R :=
  let w y := exp (- (((y - loc) / scale) * ((y - loc) / scale)) / 2) in
  if Rlt_dec x lo then 0 else if Rlt_dec hi x then 0 else w x / RInt w lo hi.

(** The kernels whose loss takes unbounded parameters, with their components. *)
Definition uparam_kernels : list (component * (rec R -> R -> R -> R -> res R)) :=
  [ (EARLY_INDEX_ALPHA, pred_early_index_kern "_alpha");
    (EARLY_INDEX_BETA, pred_early_index_kern "_beta");
    (EARLY_INDEX_POP, pred_early_index_kern "");
    (LOGTC_EARLY, pred_logtc_kern "_early");
    (LOGTC_LATE, pred_logtc_kern "_late") ].

(** The kernels with a global loss and a global fitter, one per file. *)
Definition global_kernels : list (component * (rec R -> R -> R -> res R)) :=
  [ (LGM0_C0_EARLY, pred_c0_kern "_early"); (LGM0_C1_EARLY, pred_c1_kern "_early");
    (LGM0_C0_LATE, pred_c0_kern "_late"); (LGM0_C1_LATE, pred_c1_kern "_late");
    (LGM0_C0_EARLY_SATS, pred_c0_kern "_early_sats"); (LGM0_C1_EARLY_SATS, pred_c1_kern "_early_sats");
    (LGM0_C0_LATE_SATS, pred_c0_kern "_late_sats"); (LGM0_C1_LATE_SATS, pred_c1_kern "_late_sats") ].

(** A minimiser that, when it reports success, reports the loss of the
    parameters it returns. *)
Definition reports_its_loss {P G}
    (minimize : (P -> xr) -> (P -> G) -> P -> P * xr * bool) : Prop :=
  forall L g p x f, minimize L g p = (x, f, true) -> f = L x.

(** Fitted parameters of a peak-time density. *)
Definition utp_params (loc scale : R) : list (string * R) := [("utp_loc", loc); ("utp_scale", scale)].

(** Measured fractions of halos already past their peak: for one mass and
    observing time, pairs of t_peak/t_obs and fraction.  As data of
    loss_multimass, and paired with the fractions [f mass time utp] of a model. *)
Definition mass_row (r : list (R * R) * R * R) : list R * list R * R * R :=
  let '(pts, lgm, t) := r in (map fst pts, map snd pts, lgm, t).
Definition mass_pairs (f : R -> R -> R -> R) (rows : list (list (R * R) * R * R)) : list (R * R) :=
  flat_map (fun r => map (fun q => (f (snd (fst r)) (snd r) (fst q), snd q)) (fst (fst r))) rows.

(** The parameters of a peak-time density that a pair of unbounded numbers
    stands for, when numbers are rounded with [round]. *)
Definition stands_for (round : R -> R) (u : R * R) (loc scale : R) : Prop :=
  get_bounded_params UTP [("u_utp_loc", round (fst u)); ("u_utp_scale", round (snd u))]
  = Ok (utp_params loc scale).
