(** What the parameters of the population model mean. *)

From Coq Require Import Reals String List Bool Arith ZArith Lia Lra.
From Verif Require Import Model_Num RealAux Model_Base Model_Kernels Model_Utils Model_PopBase Model_PopData
  Model_PopParams Model_PopKernels Proofs_Kernels Spec_Utils Spec_Pop Spec_PopLimits Proofs_PopBase Proofs_PopParams
  Proofs_PopAll Proofs_PopInterp Proofs_PopKernels.
Import ListNotations.
Local Open Scope R_scope.
Local Open Scope string_scope.

(** ** The logistic curve *)

Lemma logistic_opp x : logistic (- x) = 1 - logistic x.
Proof.
  unfold logistic. rewrite Ropp_involutive, exp_Ropp. pose proof (exp_pos x). field. lra.
Qed.

Lemma logistic_exp x : logistic x < exp x.
Proof.
  unfold logistic. rewrite exp_Ropp. pose proof (exp_pos x) as P.
  replace (/ (1 + / exp x)) with (exp x * / (exp x + 1)) by (field; lra).
  rewrite <- (Rmult_1_r (exp x)) at 3. apply Rmult_lt_compat_l; [exact P|].
  rewrite <- Rinv_1. apply Rinv_lt_contravar; lra.
Qed.

Lemma logistic_tail c eps : 0 <= c -> 0 < eps -> exists M, forall x, x <= M -> c * logistic x < eps.
Proof.
  intros Hc He. assert (Q : 0 < eps / (c + 1)) by (apply Rdiv_lt_0_compat; lra).
  exists (ln (eps / (c + 1))). intros x Hx.
  assert (L : logistic x < eps / (c + 1)).
  { eapply Rlt_le_trans; [apply logistic_exp|]. rewrite <- (exp_ln _ Q).
    destruct Hx as [Hx|Hx]; [left; now apply exp_increasing|right; now rewrite Hx]. }
  pose proof (logistic_pos x) as P.
  apply Rle_lt_trans with ((c + 1) * logistic x); [nra|].
  replace eps with ((c + 1) * (eps / (c + 1))) by (field; lra). apply Rmult_lt_compat_l; lra.
Qed.

Lemma logistic_ln9 : logistic (ln 9) = 9 / 10.
Proof. unfold logistic. rewrite exp_Ropp, exp_ln by lra. field. Qed.

Lemma scaled_le k x0 M x : 0 < k -> x <= x0 + M / k -> k * (x - x0) <= M.
Proof.
  intros Hk H. apply Rle_trans with (k * (M / k)); [apply Rmult_le_compat_l; lra|].
  right. field. lra.
Qed.

Lemma sigmoid_gradual x0 k a b : 0 < k -> gradual (fun x => sigmoid x x0 k a b) a b x0 (ln 9 / k).
Proof.
  intros Hk.
  assert (Lx : forall x y, x <= y -> logistic (k * (x - x0)) <= logistic (k * (y - x0)))
    by (intros x y H; apply logistic_le, Rmult_le_compat_l; lra).
  refine (conj _ (conj _ (conj _ (conj _ (conj _ (conj _ _)))))).
  - intros Hab x y H. rewrite !sigmoid_R. pose proof (Lx x y H). nra.
  - intros Hab x y H. rewrite !sigmoid_R. pose proof (Lx x y H). nra.
  - intros eps He. destruct (logistic_tail (Rabs (b - a)) eps (Rabs_pos _) He) as (M & HM).
    exists (x0 + M / k). intros x Hx. rewrite sigmoid_R.
    replace (a + (b - a) * logistic (k * (x - x0)) - a) with ((b - a) * logistic (k * (x - x0))) by ring.
    rewrite Rabs_mult, (Rabs_right (logistic _)) by (left; apply logistic_pos).
    apply HM. now apply scaled_le.
  - intros eps He. destruct (logistic_tail (Rabs (b - a)) eps (Rabs_pos _) He) as (M & HM).
    exists (x0 - M / k). intros x Hx. rewrite sigmoid_R.
    replace (a + (b - a) * logistic (k * (x - x0)) - b) with (- ((b - a) * (1 - logistic (k * (x - x0))))) by ring.
    rewrite Rabs_Ropp, <- logistic_opp, Rabs_mult, (Rabs_right (logistic _)) by (left; apply logistic_pos).
    apply HM. replace (- (k * (x - x0))) with (k * ((2 * x0 - x) - x0)) by ring. apply scaled_le; lra.
  - rewrite sigmoid_R. replace (k * (x0 - x0)) with 0 by ring. rewrite logistic_0. lra.
  - rewrite sigmoid_R. replace (k * (x0 - ln 9 / k - x0)) with (- ln 9) by (field; lra).
    rewrite logistic_opp, logistic_ln9. lra.
  - rewrite sigmoid_R. replace (k * (x0 + ln 9 / k - x0)) with (ln 9) by (field; lra).
    rewrite logistic_ln9. lra.
Qed.

Lemma gradual_ext f g a b m w : (forall x, f x = g x) -> gradual f a b m w -> gradual g a b m w.
Proof.
  intros E (H1 & H2 & H3 & H4 & H5 & H6 & H7).
  refine (conj _ (conj _ (conj _ (conj _ (conj _ (conj _ _)))))).
  - intros H x y L. rewrite <- !E. now apply H1.
  - intros H x y L. rewrite <- !E. now apply H2.
  - intros eps He. destruct (H3 eps He) as (M & HM). exists M. intros x L. rewrite <- E. now apply HM.
  - intros eps He. destruct (H4 eps He) as (M & HM). exists M. intros x L. rewrite <- E. now apply HM.
  - now rewrite <- E.
  - now rewrite <- E.
  - now rewrite <- E.
Qed.

Lemma sigmoid_gradual' x0 k a b w : 0 < k -> w = ln 9 / k -> gradual (fun x => sigmoid x x0 k a b) a b x0 w.
Proof. intros Hk ->. now apply sigmoid_gradual. Qed.

(** Reading the field of a hypothesis [has p k v]. *)
Ltac rd Hn := repeat match goal with H : has ?p ?k ?v |- _ =>
  rewrite (in_getattr p k v Hn H); cbn [bind]; clear H end.

Ltac grad := apply sigmoid_gradual'; [cbn; lra|cbn; field_simplify; lra].

(** ** Fraction of early formers *)

Lemma fraction_meaning (p : rec R) tx0 lx0 le ll he hl : NoDup (map fst p) ->
  has p "fec_t_obs_x0" tx0 -> has p "fec_lgm_x0" lx0 ->
  has p "fec_lgm_ylo_early" le -> has p "fec_lgm_ylo_late" ll ->
  has p "fec_lgm_yhi_early" he -> has p "fec_lgm_yhi_late" hl ->
  exists light heavy : R -> R, exists f : R -> R -> R,
    (forall lgm t, frac_early_cens_kern p lgm t = Ok (f lgm t)) /\
    gradual light le ll tx0 (ln 9) /\ gradual heavy he hl tx0 (ln 9) /\
    forall t, gradual (fun lgm => f lgm t) (light t) (heavy t) lx0 (ln 9 / 4).
Proof.
  intros Hn H1 H2 H3 H4 H5 H6.
  exists (fun t => sigmoid t tx0 FEC_T_K le ll), (fun t => sigmoid t tx0 FEC_T_K he hl).
  eexists (fun lgm t => sigmoid lgm lx0 FEC_LGM_K (sigmoid t tx0 FEC_T_K le ll) (sigmoid t tx0 FEC_T_K he hl)).
  refine (conj _ (conj _ (conj _ _))).
  - intros lgm t. unfold frac_early_cens_kern. rd Hn. reflexivity.
  - grad.
  - grad.
  - intros t. grad.
Qed.

(** ** The two indices *)

Lemma late_meaning (p : rec R) s x0 lo hi : NoDup (map fst p) ->
  has p ("late_index_x0" ++ s) x0 -> has p ("late_index_ylo" ++ s) lo -> has p ("late_index_yhi" ++ s) hi ->
  exists f, (forall lgm, pred_late_index_kern s p lgm = Ok (confined (101/1000) (4999/1000) (f lgm))) /\
    gradual f lo hi x0 (ln 9).
Proof.
  intros Hn H1 H2 H3. exists (fun lgm => sigmoid lgm x0 LATE_INDEX_K lo hi). split.
  - intros lgm. unfold pred_late_index_kern. rd Hn. cbn [late_index MAH_PBOUNDS]. rewrite clip_R. unfold confined.
    f_equal. f_equal; [f_equal|]; cbn; lra.
  - grad.
Qed.

Lemma early_meaning (p : rec R) s lx0 px0 pe pl tx0 te tl : NoDup (map fst p) ->
  has p ("early_index_lgm_x0" ++ s) lx0 ->
  has p ("early_index_ylo_x0" ++ s) px0 -> has p ("early_index_ylo_ylo" ++ s) pe -> has p ("early_index_ylo_yhi" ++ s) pl ->
  has p ("early_index_yhi_x0" ++ s) tx0 -> has p ("early_index_yhi_ylo" ++ s) te -> has p ("early_index_yhi_yhi" ++ s) tl ->
  exists light heavy : R -> R, exists f : R -> R -> R -> R,
    (forall lgm t tp, pred_early_index_kern s p lgm t tp = Ok (confined (101/1000) (9999/1000) (f lgm t tp))) /\
    gradual light pe pl px0 (ln 9) /\ gradual heavy te tl tx0 (2 * ln 9) /\
    forall t tp, gradual (fun lgm => f lgm t tp) (light tp) (heavy t) lx0 (ln 9).
Proof.
  intros Hn H1 H2 H3 H4 H5 H6 H7.
  exists (fun tp => sigmoid tp px0 EARLY_INDEX_YLO_K pe pl), (fun t => sigmoid t tx0 EARLY_INDEX_YHI_K te tl).
  exists (fun lgm t tp => sigmoid lgm lx0 EARLY_INDEX_K (sigmoid tp px0 EARLY_INDEX_YLO_K pe pl)
                                                (sigmoid t tx0 EARLY_INDEX_YHI_K te tl)).
  refine (conj _ (conj _ (conj _ _))).
  - intros lgm t tp. unfold pred_early_index_kern. rd Hn. cbn [early_index MAH_PBOUNDS]. rewrite clip_R. unfold confined.
    f_equal. f_equal; [f_equal|]; cbn; try lra; reflexivity.
  - grad.
  - grad.
  - intros t tp. grad.
Qed.

(** ** The critical time *)

Lemma logtc_meaning (p : rec R) s a0 a1 lo hi x0 c1 : NoDup (map fst p) ->
  has p ("logtc_lgm_c0_tp_ytp_tobs_c0" ++ s) a0 -> has p ("logtc_lgm_c0_tp_ytp_tobs_c1" ++ s) a1 ->
  has p ("logtc_lgm_c0_tp_ylo" ++ s) lo -> has p ("logtc_lgm_c0_tp_yhi" ++ s) hi ->
  has p ("logtc_c0_ss_x0" ++ s) x0 -> has p ("logtc_lgm_c1" ++ s) c1 ->
  exists slope, gradual slope lo hi x0 (2 * ln 9) /\
    forall lgm t tp, pred_logtc_kern s p lgm t tp =
      Ok (confined (-(999/1000)) (999/1000) (a0 + a1 * t + slope tp * (tp - 10) + c1 * (lgm - 12))).
Proof.
  intros Hn H1 H2 H3 H4 H5 H6. exists (fun tp => sigmoid tp x0 C0_SS_K lo hi). split; [grad|].
  intros lgm t tp. unfold pred_logtc_kern, get_c0. rd Hn. cbn [logtc MAH_PBOUNDS]. rewrite clip_R. unfold confined.
  f_equal. f_equal; [f_equal|]; cbn; try lra; reflexivity.
Qed.

(** ** The mass today *)

Lemma logm0_meaning (p : rec R) s y0 lo0 x0 k0 k1 y1 lo1 x1 cx clo chi : NoDup (map fst p) ->
  has p ("lgm0pop_c0_ytp" ++ s) y0 -> has p ("lgm0pop_c0_ylo" ++ s) lo0 -> has p ("lgm0pop_c0_t_obs_x0" ++ s) x0 ->
  has p ("lgm0pop_c0_clip_c0" ++ s) k0 -> has p ("lgm0pop_c0_clip_c1" ++ s) k1 ->
  has p ("lgm0pop_c1_ytp" ++ s) y1 -> has p ("lgm0pop_c1_ylo" ++ s) lo1 -> has p ("lgm0pop_c1_t_obs_x0" ++ s) x1 ->
  has p ("lgm0pop_c1_clip_x0" ++ s) cx -> has p ("lgm0pop_c1_clip_ylo" ++ s) clo -> has p ("lgm0pop_c1_clip_yhi" ++ s) chi ->
  exists slope0 slope1 floor1, gradual slope0 lo0 0 x0 (4 * ln 9) /\ gradual slope1 lo1 0 x1 (4 * ln 9) /\
    gradual floor1 clo chi cx (ln 9) /\
    forall lgm t tp, pred_logm0_kern s p lgm t tp =
      Ok (lgm + (Rmax (y0 + slope0 t * (t - 15)) (k0 + k1 * tp) +
                 Rmax (y1 + slope1 t * (t - 10)) (floor1 tp) * (lgm - 12))).
Proof.
  intros Hn H1 H2 H3 H4 H5 H6 H7 H8 H9 H10 H11.
  exists (fun t => sigmoid t x0 LGM0_GLOBAL_K lo0 0), (fun t => sigmoid t x1 LGM0_GLOBAL_K lo1 0),
    (fun tp => sigmoid tp cx LGM0_CLIP_TP_K clo chi).
  refine (conj _ (conj _ (conj _ _))).
  - grad.
  - grad.
  - grad.
  - intros lgm t tp. unfold pred_logm0_kern, pred_c0_kern, pred_c1_kern. rd Hn. unfold clip_min. rewrite !nmaximum_R.
    reflexivity.
Qed.

(** ** The probability of still growing *)

Lemma ftpt0_meaning (p : rec R) a0 a1 c1 : NoDup (map fst p) ->
  has p "ftpt0_c0_c0" a0 -> has p "ftpt0_c0_c1" a1 -> has p "ftpt0_c1" c1 ->
  forall lgm t, ftpt0_kernel p lgm t =
    Ok (confined (1/100) (99/100) (confined (1/100) (99/100) (a0 + a1 * (t - 10)) + c1 * (lgm - 12))).
Proof.
  intros Hn H1 H2 H3 lgm t. unfold ftpt0_kernel. rd Hn. rewrite !clip_R. reflexivity.
Qed.

(** ** The peak time of centrals *)

Lemma cen_peak_meaning (p : rec R) lx0 tx0 le he ll hl : NoDup (map fst p) ->
  has p "cen_tp_lgm_x0_x0" lx0 -> has p "cen_tp_t_obs_x0_x0" tx0 ->
  has p "cen_tp_x0_ylo_early" le -> has p "cen_tp_x0_yhi_early" he ->
  has p "cen_tp_x0_ylo_late" ll -> has p "cen_tp_x0_yhi_late" hl ->
  exists early late : R -> R, exists median : R -> R -> R, exists f : R -> R -> R -> R,
    (forall us lgm t, frac_peaked_vs_lgm p us lgm t = Ok (map (fun u => f u lgm t) us)) /\
    (forall lgm t, gradual (fun u => f u lgm t) 0 1 (median lgm t) (ln 9 / 5)) /\
    (forall lgm, gradual (fun t => median lgm t) (early lgm) (late lgm) tx0 (ln 9 / 2)) /\
    gradual early le he lx0 (ln 9) /\ gradual late ll hl lx0 (ln 9).
Proof.
  intros Hn H1 H2 H3 H4 H5 H6.
  exists (fun lgm => sigmoid lgm lx0 UTP_LGM_X0_K le he), (fun lgm => sigmoid lgm lx0 UTP_LGM_X0_K ll hl).
  exists (fun lgm t => sigmoid t tx0 UTP_T_OBS_X0_K (sigmoid lgm lx0 UTP_LGM_X0_K le he) (sigmoid lgm lx0 UTP_LGM_X0_K ll hl)).
  eexists (fun u lgm t => sigmoid u _ TPC_K TPC_YLO TPC_YHI).
  refine (conj _ (conj _ (conj _ (conj _ _)))).
  - intros us lgm t. unfold frac_peaked_vs_lgm, get_utp_x0_from_lgm. rd Hn. reflexivity.
  - intros lgm t. grad.
  - intros lgm. grad.
  - grad.
  - grad.
Qed.

(** ** The peak time of satellites *)

Lemma sat_peak_meaning (p : rec R) lx0 lt0 le ll st0 se sl : NoDup (map fst p) ->
  has p "utp_loc_lgm_x0" lx0 -> has p "utp_loc_lgm_ylo_t0" lt0 ->
  has p "utp_loc_lgm_ylo_early" le -> has p "utp_loc_lgm_ylo_late" ll ->
  has p "utp_scale_lgm_ylo_t0" st0 -> has p "utp_scale_lgm_ylo_early" se -> has p "utp_scale_lgm_ylo_late" sl ->
  exists light_loc light_scale : R -> R, exists loc scale : R -> R -> R,
    (forall lgm t, get_utp_loc p lgm t = Ok (loc lgm t)) /\
    (forall lgm t, get_utp_scale p lgm t = Ok (scale lgm t)) /\
    (forall t, gradual (fun lgm => loc lgm t) (light_loc t) (95/100) lx0 (2 / 3 * ln 9)) /\
    gradual light_loc le ll lt0 (5 / 2 * ln 9) /\
    (forall t, gradual (fun lgm => scale lgm t) (light_scale t) (16/100) 12 (ln 9)) /\
    gradual light_scale se sl st0 (ln 9).
Proof.
  intros Hn H1 H2 H3 H4 H5 H6 H7.
  exists (fun t => sigmoid t lt0 UTP_LOC_TOBS_K le ll), (fun t => sigmoid t st0 UTP_SCALE_TOBS_K se sl).
  exists (fun lgm t => sigmoid lgm lx0 UTP_LOC_LGM_K (sigmoid t lt0 UTP_LOC_TOBS_K le ll) UTP_LOC_LGM_YHI).
  exists (fun lgm t => sigmoid lgm UTP_SCALE_LGM_X0 UTP_SCALE_LGM_K (sigmoid t st0 UTP_SCALE_TOBS_K se sl) UTP_SCALE_LGM_YHI).
  refine (conj _ (conj _ (conj _ (conj _ (conj _ _))))).
  - intros lgm t. unfold get_utp_loc, get_utp_loc_lgm_ylo. rd Hn. reflexivity.
  - intros lgm t. unfold get_utp_scale, get_utp_scale_lgm_ylo. rd Hn. reflexivity.
  - intros t. grad.
  - grad.
  - intros t. grad.
  - grad.
Qed.

(** ** The width of the truncated normal of centrals *)

Lemma cen_width_meaning (p : rec R) b lo hi t0 : NoDup (map fst p) ->
  has p "tpck_scale_boost_early" b -> has p "tpck_scale_mh_lo" lo -> has p "tpck_scale_mh_hi" hi ->
  exists today boost, gradual today lo hi (125/10) (ln 9 / 2) /\ gradual boost b 0 (t0 / 2) (ln 9) /\
    forall lgm t, get_singlepdf_params p lgm t t0 = Ok (95/100, today lgm + boost t).
Proof.
  intros Hn H1 H2 H3.
  exists (fun lgm => sigmoid lgm TPCK_LGM0 TPCK_K lo hi), (fun t => sigmoid t (t0 / 2) LOC_T_OBS_K b 0).
  refine (conj _ (conj _ _)).
  - grad.
  - grad.
  - intros lgm t. unfold get_singlepdf_params, get_truncnorm_scale, get_truncnorm_scale_boost. rd Hn.
    f_equal. f_equal. cbn. lra.
Qed.
