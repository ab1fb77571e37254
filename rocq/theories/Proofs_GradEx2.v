(** A regular bin for the published parameters. *)

From Coq Require Import Reals String List Bool Arith ZArith Lia Lra.
From Coquelicot Require Import Coquelicot.
From Verif Require Import Model_Num RealAux Model_Base Model_Kernels Model_Utils Model_PopBase Model_PopData
  Model_PopParams Model_PopKernels Model_PopMC Model_Grad Spec_Kernels Spec_Utils Spec_Pop Spec_PopMC Spec_TruncNorm
  Spec_Grad Proofs_Kernels Proofs_AD Proofs_PopBase Proofs_PopInterp Proofs_PopKernels Proofs_PopCov Proofs_PopTpeak
  Proofs_PopAll Proofs_PopProps Proofs_PopMC Proofs_PopMC2 Proofs_PopLoss Proofs_PopMC3 Proofs_PopMass
  Proofs_PopAD Proofs_PopAD4 Proofs_CholAD Proofs_GradEx.
Import ListNotations.
Local Open Scope R_scope.
Local Open Scope string_scope.

Lemma all_legal : legal_pop ALL_PDICT.
Proof. destruct default_legal as (d & E & L). rewrite published_pdict in E. now injection E as <-. Qed.

(** The published value of every field that is mentioned in the goal. *)
Ltac published :=
  repeat match goal with
  | |- context [val ALL_PDICT ?k] =>
      let g := constr:(getattr ALL_PDICT k) in
      let g := eval unfold ALL_PDICT in g in
      let g := eval cbn in g in
      match g with Ok ?v => replace (val ALL_PDICT k) with v by (unfold val, ALL_PDICT; cbn; reflexivity) end
  end.

Lemma logistic_small x : x <= -4 -> 0 < logistic x <= 1/6.
Proof.
  intros H. split; [apply logistic_pos|]. unfold logistic. pose proof (exp_ineq1_le (- x)).
  apply Rmult_le_reg_r with (1 + exp (- x)); [lra|]. rewrite Rinv_l by lra. lra.
Qed.

Lemma sig_R x x0 k lo hi : sigmoid x x0 k lo hi = lo + (hi - lo) * logistic (k * (x - x0)).
Proof. reflexivity. Qed.
Lemma slope_R x xtp ytp x0 k lo hi :
  sig_slope x xtp ytp x0 k lo hi = ytp + (lo + (hi - lo) * logistic (k * (x - x0))) * (x - xtp).
Proof. reflexivity. Qed.

Ltac small L := match goal with |- context [logistic ?a] =>
  pose proof (logistic_small a ltac:(lra)) as L; set (l := logistic a) in * end.
Ltac anyl L := match goal with |- context [logistic ?a] =>
  pose proof (logistic_pos a) as L; pose proof (logistic_lt1 a); set (l := logistic a) in * end.

Lemma off_clips g tp : (g = Cen -> tp = 1/2) -> (g = Sat -> tp = 1001/1000) ->
  mean_off_clips (m0_suffix g "_early") "_early" "_alpha" ALL_PDICT 12 10 tp /\
  mean_off_clips (m0_suffix g "_late") "_late" "_beta" ALL_PDICT 12 10 tp.
Proof.
  intros H1 H2.
  assert (Htp : 1/2 <= tp <= 1001/1000) by (destruct g; [rewrite H1 by reflexivity|rewrite H2 by reflexivity]; lra).
  assert (M : forall s v, In s four_populations -> pred_logm0_kern s ALL_PDICT 12 10 tp = Ok v -> 0 < v < 17).
  { intros s v Hs Hv. apply (logm0_bounds ALL_PDICT s 12 10 tp v all_legal Hs); try lra. exact Hv. }
  split; (split; [|split; [|split; [|split; [|split]]]]).
  - unfold raw_logtc. cbn [append]. rewrite slope_R. published. small L. nra.
  - unfold raw_logtc. cbn [append]. rewrite slope_R. published. small L. nra.
  - unfold raw_late. cbn [append]. rewrite sig_R. published. lra.
  - unfold raw_c0, floor_c0. rewrite slope_R. destruct g; cbn [m0_suffix append]; published; anyl L; nra.
  - unfold raw_c1, floor_c1. rewrite slope_R, sig_R. destruct g; cbn [m0_suffix append]; published.
    + pose proof (logistic_pos (1 * (tp - 7185/1000))). pose proof (logistic_lt1 (1 * (tp - 7185/1000))).
      set (l := logistic (1 * (tp - 7185/1000))) in *. nra.
    + pose proof (logistic_pos (1 * (tp - 10539/1000))). pose proof (logistic_lt1 (1 * (tp - 10539/1000))).
      set (l := logistic (1 * (tp - 10539/1000))) in *. nra.
  - intros v. apply M. destruct g; cbn; tauto.
  - unfold raw_logtc. cbn [append]. rewrite slope_R. published. small L. nra.
  - unfold raw_logtc. cbn [append]. rewrite slope_R. published. small L. nra.
  - unfold raw_late. cbn [append]. rewrite sig_R. published. lra.
  - unfold raw_c0, floor_c0. rewrite slope_R. destruct g; cbn [m0_suffix append]; published; anyl L; nra.
  - unfold raw_c1, floor_c1. rewrite slope_R, sig_R. destruct g; cbn [m0_suffix append]; published.
    + pose proof (logistic_small (1 * (tp - 8443/1000)) ltac:(lra)).
      set (l := logistic (1 * (tp - 8443/1000))) in *. nra.
    + pose proof (logistic_pos (1 * (tp - 10587/1000))). pose proof (logistic_lt1 (1 * (tp - 10587/1000))).
      set (l := logistic (1 * (tp - 10587/1000))) in *. nra.
  - intros v. apply M. destruct g; cbn; tauto.
Qed.

(** ** Peak times for the uniform number 0 *)

Lemma FP_pos x0 u : 0 < FP x0 u.
Proof. unfold FP. rewrite sig_R. unfold TPC_YLO, TPC_YHI. cbn [nconst Num_R]. pose proof (logistic_pos (TPC_K * (u - x0))). lra. Qed.

Lemma pow10_1 : npow10 (1 : R) = 10.
Proof. change (Rpower 10 1 = 10). apply Rpower_1. lra. Qed.

Lemma cen_draw tarr : draw_off_knots Cen ALL_PDICT tarr 12 10 1 0 /\
  peak_time truncnorm_cdf_R Cen ALL_PDICT 12 10 1 0 = Ok (1/2).
Proof.
  assert (PC : provides TPCENS_FLEX ALL_PDICT) by (apply pop_components_provided; [in_list|exact all_legal]).
  destruct (utp_of_uran_eval ALL_PDICT 12 10 PC) as (x0 & E). destruct (E 0) as [Eu Et].
  assert (Z : interp 0 (map (FP x0) (linspace 0 1 200)) (linspace 0 1 200) = 0).
  { apply interp_below. apply FP_pos. }
  split.
  - intros tab Htab. rewrite Et in Htab. apply Ok_inj in Htab. subst tab. cbv zeta. rewrite utp_table, Z.
    split; [|split].
    + intros Hin. apply in_map_iff in Hin. destruct Hin as (y & Hy & _). pose proof (FP_pos x0 y). lra.
    + lra.
    + intros s _ _. right; right. lra.
  - cbn [peak_time]. unfold tpeak_cen_of_uran. rewrite Eu, Z. cbn [bind]. f_equal. cbn [nmul Num_R].
    rewrite pow10_1, Rmax_right by lra. lra.
Qed.

Lemma exp_big : 9 <= exp (3377/1000).
Proof.
  pose proof (exp_ineq1_le (3377/3000)). 
  replace (3377/1000) with (3377/3000 + (3377/3000 + 3377/3000)) by lra. rewrite !exp_plus.
  set (e := exp (3377/3000)) in *. nra.
Qed.

Lemma sat_window_12 loc scale : get_utp_loc ALL_PDICT 12 10 = Ok loc -> get_utp_scale ALL_PDICT 12 10 = Ok scale ->
  loc - 4 * scale < 1001/10000 /\ 9999/10000 < loc + 4 * scale.
Proof.
  intros H1 H2.
  unfold get_utp_loc, get_utp_loc_lgm_ylo, ALL_PDICT in H1. cbn -[sigmoid Rdiv] in H1. apply Ok_inj in H1.
  unfold get_utp_scale, get_utp_scale_lgm_ylo, ALL_PDICT in H2. cbn -[sigmoid Rdiv] in H2. apply Ok_inj in H2.
  unfold UTP_LOC_LGM_K, UTP_LOC_LGM_YHI, UTP_LOC_TOBS_K, UTP_SCALE_LGM_X0, UTP_SCALE_LGM_K, UTP_SCALE_TOBS_K,
    UTP_SCALE_LGM_YHI in *.
  rewrite !sig_R in H1, H2. cbn [nconst Num_R] in H1, H2. subst loc scale.
  assert (A : 1/2 < logistic (4 / 10 * (10 - 8779 / 1000)) < 1).
  { split; [|apply logistic_lt1]. rewrite <- logistic_0. apply logistic_lt. lra. }
  assert (B : 0 < logistic (15 / 10 * (12 - 12967 / 1000)) < 1/2).
  { split; [apply logistic_pos|]. rewrite <- logistic_0. apply logistic_lt. lra. }
  assert (C : 9/10 <= logistic (1 * (10 - 6623 / 1000)) < 1).
  { split; [|apply logistic_lt1]. unfold logistic. rewrite exp_Ropp.
    replace (1 * (10 - 6623 / 1000)) with (3377/1000) by lra. pose proof exp_big as H.
    assert (/ exp (3377/1000) <= / 9) by (apply Rinv_le_contravar; lra).
    pose proof (Rinv_0_lt_compat _ (exp_pos (3377/1000))).
    apply Rmult_le_reg_r with (1 + / exp (3377/1000)); [lra|]. rewrite Rinv_l by lra. lra. }
  replace (1 * (12 - 12)) with 0 by ring. rewrite logistic_0.
  set (a := logistic (4 / 10 * (10 - 8779 / 1000))) in *.
  set (b := logistic (15 / 10 * (12 - 12967 / 1000))) in *.
  set (c := logistic (1 * (10 - 6623 / 1000))) in *.
  split; nra.
Qed.

Lemma sat_draw : draw_off_knots Sat ALL_PDICT [10] 12 10 1 0 /\
  peak_time truncnorm_cdf_R Sat ALL_PDICT 12 10 1 0 = Ok (1001/1000).
Proof.
  assert (PC : provides TP_SATS ALL_PDICT) by (apply pop_components_provided; [in_list|exact all_legal]).
  destruct (sat_tpeak_eval ALL_PDICT 12 10 PC) as (loc & scale & E1 & E2 & B1 & B2 & E).
  pose proof (sat_window_12 loc scale E1 E2) as [W1 W2].
  assert (XL : XLO loc scale = 1001/10000) by (unfold XLO; apply Rmax_right; lra).
  assert (XH : XHI loc scale = 9999/10000) by (unfold XHI; apply Rmin_right; lra).
  assert (PT : forall x, In x (linspace (1001/10000) (9999/10000) 50) -> 0 < tp_cdf_kern truncnorm_cdf_R x (loc, scale)).
  { intros x Hx. destruct (In_nth _ _ 0 Hx) as (i & Hi & Ei). rewrite linspace_length in Hi.
    rewrite linspace_nth in Ei by exact Hi.
    assert (R1 : 0 <= INR i / INR (50 - 1) <= 1).
    { replace (INR (50 - 1)) with 49 by (cbn; lra). pose proof (pos_INR i).
      assert (INR i <= 49) by (replace 49 with (INR 49) by (cbn; lra); apply le_INR; lia). lra. }
    assert (Hx' : 1001/10000 <= x <= 9999/10000) by nra.
    pose proof (trunc_cdf_strict loc scale (1/10) x ltac:(lra) ltac:(lra) ltac:(lra) ltac:(lra)) as S.
    rewrite (trunc_params loc scale (1/10)) in S by lra.
    pose proof (truncnorm_range (1/10) ((1 / 10 - loc) / scale) ((1 - loc) / scale) loc scale
      (trunc_ab loc scale ltac:(lra))). lra. }
  assert (TP : peak_time truncnorm_cdf_R Sat ALL_PDICT 12 10 1 0 = Ok (1001/1000)).
  { cbn [peak_time]. rewrite E, utp_sat_eval, XL, XH. f_equal.
    assert (Srt : sorted (map (fun x => tp_cdf_kern truncnorm_cdf_R x (loc, scale)) (linspace (1001/10000) (9999/10000) 50))).
    { apply sorted_map; [|apply linspace_sorted; lra]. intros x y Hxy. apply trunc_cdf_mono; lra. }
    assert (F0 : forall l : list R, (0 < length l)%nat -> nth 0 (map (fun x => tp_cdf_kern truncnorm_cdf_R x (loc, scale)) l) 0
                 = tp_cdf_kern truncnorm_cdf_R (nth 0 l 0) (loc, scale)).
    { intros [|x l]; cbn [length]; [lia|reflexivity]. }
    destruct (interp_cases 0 _ (linspace (1001/10000) (9999/10000) 50) Srt) as [[H1 H2]|[[H1 H2]|[H1 H2]]].
    - now rewrite map_length.
    - rewrite map_length, linspace_length. lia.
    - rewrite H2, linspace_first by lia. lra.
    - exfalso. rewrite map_length, linspace_length in H1.
      pose proof (sorted_nth _ 0 (50 - 1) 0 Srt) as S. rewrite map_length, linspace_length in S. specialize (S ltac:(lia)).
      rewrite (F0 _) in S by (rewrite linspace_length; lia).
      assert (Hin : In (nth 0 (linspace (1001/10000) (9999/10000) 50) 0) (linspace (1001/10000) (9999/10000) 50))
        by (apply nth_In; rewrite linspace_length; lia).
      specialize (PT _ Hin). lra.
    - exfalso. rewrite (F0 _) in H1 by (rewrite linspace_length; lia).
      assert (Hin : In (nth 0 (linspace (1001/10000) (9999/10000) 50) 0) (linspace (1001/10000) (9999/10000) 50))
        by (apply nth_In; rewrite linspace_length; lia).
      specialize (PT _ Hin). lra. }
  split; [|exact TP].
  intros l s El Es. rewrite E1 in El. rewrite E2 in Es. apply Ok_inj in El, Es. subst l s.
  split; [lra|]. split; [lra|]. split.
  - cbv zeta. change (Rmax (loc - 4 * scale) (1001 / 10000)) with (XLO loc scale).
    change (Rmin (loc + 4 * scale) (9999 / 10000)) with (XHI loc scale). rewrite XL, XH. intros Hin.
    apply in_map_iff in Hin. destruct Hin as (y & Hy & Hin). specialize (PT y Hin).
    rewrite trunc_params in PT by lra. lra.
  - intros s [<-|[]] Hs. cbn [peak_time] in TP. rewrite Hs in TP. apply Ok_inj in TP. lra.
Qed.

Lemma regular_halo_12 g : regular_halo g ALL_PDICT [10] 12 10 1 0.
Proof.
  destruct g.
  - destruct (cen_draw [10]) as [D E]. split; [exact D|]. intros tp Htp. rewrite E in Htp. apply Ok_inj in Htp. subst tp.
    split; [lra|]. apply (off_clips Cen); [reflexivity|discriminate].
  - destruct sat_draw as [D E]. split; [exact D|]. intros tp Htp. rewrite E in Htp. apply Ok_inj in Htp. subst tp.
    split; [lra|]. apply (off_clips Sat); [discriminate|reflexivity].
Qed.
