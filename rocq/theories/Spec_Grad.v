(** Specification vocabulary for the gradients of the population losses. *)

From Coq Require Import Reals String List.
From Coquelicot Require Import Coquelicot.
From Verif Require Import Model_Num Model_Base Model_Kernels Model_Utils Model_PopBase Model_PopData
  Model_PopParams Model_PopKernels Model_PopMC Spec_Pop Spec_PopMC Spec_TruncNorm Model_Grad.
Import ListNotations.
Local Open Scope R_scope.
Local Open Scope string_scope.

(** The value of a field (0 if there is none). *)
Definition val (p : rec R) (k : string) : R := match getattr p k with Ok v => v | Err _ => 0 end.

(** The parameters [p] moved by [h] in the direction [v]. *)
Definition line (p : rec R) (v : string -> R) (h : R) : rec R :=
  map (fun kv => (fst kv, snd kv + h * v (fst kv))) p.

(** The parameters [p] with [h] added to the field [name]. *)
Definition vary (p : rec R) (name : string) (h : R) : rec R :=
  map (fun kv => if String.eqb (fst kv) name then (fst kv, snd kv + h) else kv) p.

(** [d] is the value of [f] at [x] with its derivative. *)
Definition follows (f : R -> R) (x : R) (d : Dual R) : Prop :=
  dval d = f x /\ is_derive f x (dder d).

(** A version for duals of the truncated normal distribution (external) that
    differentiates it correctly inside its support. *)
Definition exact_truncnorm (F : Dual R -> Dual R -> Dual R -> Dual R -> Dual R -> Dual R) : Prop :=
  forall x fx fa fb fl fs dx da db dl ds,
    follows fx x dx -> follows fa x da -> follows fb x db -> follows fl x dl -> follows fs x ds ->
    0 < fs x -> fa x < (fx x - fl x) / fs x < fb x ->
    follows (fun y => truncnorm_cdf_R (fx y) (fa y) (fb y) (fl y) (fs y)) x (F dx da db dl ds).

(** ** Switches

    The code contains comparisons (clips, table look-up, frozen histories,
    [M == 0]).  The derivative is claimed where no comparison is between equal
    numbers. *)

(** The quantities before clipping, with the values of the clips. *)
Definition raw_logtc (s : string) (p : rec R) (m t tp : R) : R :=
  sig_slope tp 10 (val p ("logtc_lgm_c0_tp_ytp_tobs_c0" ++ s) + val p ("logtc_lgm_c0_tp_ytp_tobs_c1" ++ s) * t)
    (val p ("logtc_c0_ss_x0" ++ s)) (1/2) (val p ("logtc_lgm_c0_tp_ylo" ++ s)) (val p ("logtc_lgm_c0_tp_yhi" ++ s))
  + val p ("logtc_lgm_c1" ++ s) * (m - 12).
Definition raw_late (s : string) (p : rec R) (m : R) : R :=
  sigmoid m (val p ("late_index_x0" ++ s)) 1 (val p ("late_index_ylo" ++ s)) (val p ("late_index_yhi" ++ s)).
Definition raw_c0 (s : string) (p : rec R) (t : R) : R :=
  sig_slope t 15 (val p ("lgm0pop_c0_ytp" ++ s)) (val p ("lgm0pop_c0_t_obs_x0" ++ s)) (1/4)
    (val p ("lgm0pop_c0_ylo" ++ s)) 0.
Definition floor_c0 (s : string) (p : rec R) (tp : R) : R :=
  val p ("lgm0pop_c0_clip_c0" ++ s) + val p ("lgm0pop_c0_clip_c1" ++ s) * tp.
Definition raw_c1 (s : string) (p : rec R) (t : R) : R :=
  sig_slope t 10 (val p ("lgm0pop_c1_ytp" ++ s)) (val p ("lgm0pop_c1_t_obs_x0" ++ s)) (1/4)
    (val p ("lgm0pop_c1_ylo" ++ s)) 0.
Definition floor_c1 (s : string) (p : rec R) (tp : R) : R :=
  sigmoid tp (val p ("lgm0pop_c1_clip_x0" ++ s)) 1 (val p ("lgm0pop_c1_clip_ylo" ++ s))
    (val p ("lgm0pop_c1_clip_yhi" ++ s)).

(** The mean parameters of a population (suffixes [m0], [tc], [ix]) of halos of
    mass [m] at time [t] that peaked at [tp] are at no clip, and the mean z=0
    mass is a legal one. *)
Definition mean_off_clips (m0 tc ix : string) (p : rec R) (m t tp : R) : Prop :=
  raw_logtc tc p m t tp <> -(999/1000) /\ raw_logtc tc p m t tp <> 999/1000 /\
  raw_late ix p m <> 101/1000 /\
  raw_c0 m0 p t <> floor_c0 m0 p tp /\
  raw_c1 m0 p t <> floor_c1 m0 p tp /\
  (forall v, pred_logm0_kern m0 p m t tp = Ok v -> 0 < v < 17).

(** The suffix of the z=0 mass parameters of centrals and satellites. *)
Definition m0_suffix (g : galaxy) (s : string) : string := match g with Cen => s | Sat => s ++ "_sats" end.

(** The table the peak time of a central is looked up in: the uniform number
    [u] is not one of its entries, the peak time is not exactly at its floor,
    and a tabulated time is the peak time only if the latter is pinned to the
    end of the table or to the floor. *)
Definition cen_draw_off_knots (p : rec R) (tarr : list R) (m t lgt0 u : R) : Prop :=
  forall tab, frac_peaked_vs_lgm p UTP_TABLE m t = Ok tab ->
    let x := interp u tab UTP_TABLE in
    ~ In u tab /\ x <> 5/100 /\
    (forall s, In s tarr -> s = Rmax x (5/100) * Rpower 10 lgt0 ->
       u < nth 0 tab 0 \/ nth 199 tab 0 < u \/ x < 5/100).

(** The same for satellites: the ends of the table are not exactly at their
    clips and no tabulated time is the peak time. *)
Definition sat_draw_off_knots (p : rec R) (tarr : list R) (m t u : R) : Prop :=
  forall loc scale, get_utp_loc p m t = Ok loc -> get_utp_scale p m t = Ok scale ->
    loc - 4 * scale <> 1001/10000 /\ loc + 4 * scale <> 9999/10000 /\
    (let lo := Rmax (loc - 4 * scale) (1001/10000) in
     let hi := Rmin (loc + 4 * scale) (9999/10000) in
     ~ In u (map (fun x => truncnorm_cdf_R x ((1/10 - loc) / scale) ((1 - loc) / scale) loc scale)
               (linspace lo hi 50))) /\
    (forall s, In s tarr -> tpeak_sat_of_uran truncnorm_cdf_R p m t u <> Ok s).

Definition draw_off_knots (g : galaxy) (p : rec R) (tarr : list R) (m t lgt0 u : R) : Prop :=
  match g with
  | Cen => cen_draw_off_knots p tarr m t lgt0 u
  | Sat => sat_draw_off_knots p tarr m t u
  end.

(** One generated halo with uniform number [u]. *)
Definition regular_halo (g : galaxy) (p : rec R) (tarr : list R) (m t lgt0 u : R) : Prop :=
  draw_off_knots g p tarr m t lgt0 u /\
  forall tp, peak_time truncnorm_cdf_R g p m t lgt0 u = Ok tp ->
    5/100 < tp < 20 /\
    mean_off_clips (m0_suffix g "_early") "_early" "_alpha" p m t tp /\
    mean_off_clips (m0_suffix g "_late") "_late" "_beta" p m t tp.

(** One bin of the loss: every one of its 200 halos is regular and the
    predicted scatter is not zero. *)
Definition regular_bin (unif : key -> R) (unifs normal : key -> nat -> R) (g : galaxy) (p : rec R) (lgt0 : R)
  (b : Bin R) (k : key) : Prop :=
  bin_tarr b <> [] /\ (forall s, In s (bin_tarr b) -> 0 < s) /\
  (forall i, (i < 200)%nat ->
     regular_halo g p (bin_tarr b) (bin_lgm_obs b) (bin_t_obs b) lgt0 (unif (Split (Split k 200 i) 2 0))) /\
  (forall mean std fp, fst (predict_mah_moments_singlebin truncnorm_cdf_R (jax_rng unif unifs normal) g p
      (bin_tarr b) (bin_lgm_obs b) (bin_t_obs b) k lgt0) = Ok (mean, std, fp) -> forall s, In s std -> 0 < s).

(** All the bins, each with its key. *)
Definition regular_bins (unif : key -> R) (unifs normal : key -> nat -> R) (g : galaxy) (p : rec R)
  (bins : list (Bin R)) (k : key) (lgt0 : R) : Prop :=
  bins <> [] /\
  forall i b, nth_error bins i = Some b ->
    regular_bin unif unifs normal g p lgt0 b (Split k (length bins) i).

(** The targets of a bin have one entry for each time. *)
Definition well_shaped (bins : list (Bin R)) : Prop :=
  forall b, In b bins -> length (bin_mean b) = length (bin_tarr b) /\ length (bin_std b) = length (bin_tarr b).

(** The six correlations. *)
Definition rho_names : list string :=
  [ "rho_logtc_logm0"; "rho_early_logm0"; "rho_early_logtc";
    "rho_late_logm0"; "rho_late_logtc"; "rho_late_early" ].

(** Legal parameters with no correlation exactly zero. *)
Definition smooth_pop (p : rec R) : Prop :=
  legal_pop p /\ forall k, In k rho_names -> val p k <> 0.

(** [D] is the derivative, at 0, of what the computation [m] returns, and the
    computation always returns. *)
Definition returns_with_derivative (m : R -> res R) (value D : R) : Prop :=
  exists L, (forall h, m h = Ok (L h)) /\ L 0 = value /\ is_derive L 0 D.
