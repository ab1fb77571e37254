(** How far the limits of C48 can be relaxed: legal parameter sets, among them
    the published one, for which the predicted mass falls below the observed
    one. *)

From Coq Require Import Reals String List Bool Arith Lia Lra.
From Verif Require Import Model_Num RealAux Model_Base Model_Kernels Model_Utils Model_PopBase Model_PopData
  Model_PopParams Model_PopKernels Model_PopMC Spec_Kernels Spec_Pop Spec_PopMC Proofs_XKernels Proofs_PopMC Proofs_PopMC2 Proofs_PopLoss Proofs_Kernels Proofs_PopTpeak
  Proofs_PopBase Proofs_PopParams Proofs_PopAll Proofs_PopInterp Proofs_PopKernels
  Proofs_PopProps Proofs_PopMC3.
Import ListNotations.
Local Open Scope R_scope.
Local Open Scope string_scope.

Lemma exp_half x : exp x = exp (x / 2) * exp (x / 2).
Proof. rewrite <- exp_plus. f_equal. lra. Qed.

Lemma exp_le_compat x y : x <= y -> exp x <= exp y.
Proof. intros [H| ->]; [left; now apply exp_increasing|apply Rle_refl]. Qed.

(** [1 - logistic x], above and below. *)
Lemma logistic_tail x : 1 - logistic x = / (1 + exp x).
Proof.
  rewrite logistic_exp, exp_Ropp. pose proof (exp_pos x). field. lra.
Qed.

Lemma exp_2515 : exp (2515 / 1000) <= 14.
Proof.
  assert (G : 1 - 2515/32000 <= exp (- (2515/32000))) by (pose proof (exp_ineq1_le (- (2515/32000))); lra).
  assert (G1 : 8489/10000 <= exp (- (2515/16000))).
  { rewrite (exp_half (- (2515/16000))). replace (- (2515/16000) / 2) with (- (2515/32000)) by lra. nra. }
  assert (G2 : 72/100 <= exp (- (2515/8000))).
  { rewrite (exp_half (- (2515/8000))). replace (- (2515/8000) / 2) with (- (2515/16000)) by lra. nra. }
  assert (G3 : 518/1000 <= exp (- (2515/4000))).
  { rewrite (exp_half (- (2515/4000))). replace (- (2515/4000) / 2) with (- (2515/8000)) by lra. nra. }
  assert (G4 : 268/1000 <= exp (- (2515/2000))).
  { rewrite (exp_half (- (2515/2000))). replace (- (2515/2000) / 2) with (- (2515/4000)) by lra. nra. }
  assert (G5 : / 14 <= exp (- (2515/1000))).
  { rewrite (exp_half (- (2515/1000))). replace (- (2515/1000) / 2) with (- (2515/2000)) by lra. nra. }
  rewrite exp_Ropp in G5. pose proof (exp_pos (2515/1000)).
  apply Rinv_le_contravar in G5; [|lra]. rewrite !Rinv_inv in G5. exact G5.
Qed.

Lemma exp_3 : 15 <= exp 3.
Proof.
  assert (G : 1 + 3/16 <= exp (3/16)) by (pose proof (exp_ineq1_le (3/16)); lra).
  assert (G1 : 141/100 <= exp (3/8)) by (rewrite (exp_half (3/8)); replace (3/8/2) with (3/16) by lra; nra).
  assert (G2 : 198/100 <= exp (3/4)) by (rewrite (exp_half (3/4)); replace (3/4/2) with (3/8) by lra; nra).
  assert (G3 : 39/10 <= exp (3/2)) by (rewrite (exp_half (3/2)); replace (3/2/2) with (3/4) by lra; nra).
  rewrite (exp_half 3); nra.
Qed.

Lemma exp_3025 : exp (3025 / 1000) <= 28.
Proof.
  replace (3025/1000) with (1 + (1 + (1 + 25/1000))) by lra. rewrite !exp_plus.
  pose proof exp_le_3. pose proof (exp_pos 1).
  assert (G : exp (25/1000) <= 1037/1000).
  { pose proof (exp_ineq1_le (- (25/1000))) as H1. rewrite exp_Ropp in H1. pose proof (exp_pos (25/1000)) as H2.
    apply Rinv_le_contravar in H1; [|lra]. rewrite Rinv_inv in H1.
    apply Rle_trans with (1 := H1). replace (1 + - (25/1000)) with (39/40) by lra. lra. }
  pose proof (exp_pos (25/1000)).
  assert (exp 1 * (exp 1 * exp 1) <= 27) by nra.
  replace (exp 1 * (exp 1 * (exp 1 * exp (25/1000)))) with (exp 1 * (exp 1 * exp 1) * exp (25/1000)) by ring.
  assert (0 < exp 1 * (exp 1 * exp 1)) by (repeat apply Rmult_lt_0_compat; assumption).
  nra.
Qed.


(** The prediction for early centrals, field by field. *)
Lemma early_formula (p : rec R) lgm t tp y x l a b y1 x1 l1 cx cl ch :
  getattr p "lgm0pop_c0_ytp_early" = Ok y -> getattr p "lgm0pop_c0_t_obs_x0_early" = Ok x ->
  getattr p "lgm0pop_c0_ylo_early" = Ok l -> getattr p "lgm0pop_c0_clip_c0_early" = Ok a ->
  getattr p "lgm0pop_c0_clip_c1_early" = Ok b ->
  getattr p "lgm0pop_c1_ytp_early" = Ok y1 -> getattr p "lgm0pop_c1_t_obs_x0_early" = Ok x1 ->
  getattr p "lgm0pop_c1_ylo_early" = Ok l1 -> getattr p "lgm0pop_c1_clip_x0_early" = Ok cx ->
  getattr p "lgm0pop_c1_clip_ylo_early" = Ok cl -> getattr p "lgm0pop_c1_clip_yhi_early" = Ok ch ->
  pred_logm0_kern "_early" p lgm t tp =
  Ok (lgm + (Rmax (y + l * (1 - logistic (1/4 * (t - x))) * (t - 15)) (a + b * tp) +
             Rmax (y1 + l1 * (1 - logistic (1/4 * (t - x1))) * (t - 10)) (ch + (cl - ch) * (1 - logistic (tp - cx))) *
             (lgm - 12))).
Proof.
  intros E1 E2 E3 E4 E5 E6 E7 E8 E9 E10 E11.
  unfold pred_logm0_kern, pred_c0_kern, pred_c1_kern. cbn [append].
  rewrite E1, E2, E3, E4, E5; cbn [bind]. rewrite E6, E7, E8, E9, E10, E11; cbn [bind]. cbv zeta.
  unfold clip_min, sig_slope, sigmoid, LGM0_C0_XTP, LGM0_C1_XTP, LGM0_GLOBAL_K, LGM0_CLIP_TP_K, TP_LGMP.
  cbn [nadd nmul nsub nconst nlogistic nmaximum Num_R]. rewrite Rmult_1_l.
  replace (l + (0 - l) * logistic (1 / 4 * (t - x))) with (l * (1 - logistic (1 / 4 * (t - x)))) by ring.
  replace (l1 + (0 - l1) * logistic (1 / 4 * (t - x1))) with (l1 * (1 - logistic (1 / 4 * (t - x1)))) by ring.
  replace (cl + (ch - cl) * logistic (tp - cx)) with (ch + (cl - ch) * (1 - logistic (tp - cx))) by ring.
  now rewrite !nmaximum_R.
Qed.

Definition ALL_PDICT : rec R := flat_map c_pdict
    [ TPCENS_FLEX; TP_SATS;
      LGM0_C0_EARLY; LGM0_C1_EARLY; LGM0_C0_LATE; LGM0_C1_LATE;
      LGM0_C0_EARLY_SATS; LGM0_C1_EARLY_SATS; LGM0_C0_LATE_SATS; LGM0_C1_LATE_SATS;
      LOGTC_EARLY; LOGTC_LATE; EARLY_INDEX_ALPHA; EARLY_INDEX_BETA;
      LATE_INDEX_ALPHA; LATE_INDEX_BETA; FEC; COV ].

Lemma published_pdict : DEFAULT_DIFFMAHPOP_PARAMS = Ok ALL_PDICT.
Proof.
  unfold DEFAULT_DIFFMAHPOP_PARAMS. rewrite <- pdict_names.
  rewrite make_kw_self by (rewrite pdict_names; apply pop_names_nodup). cbn [bind].
  rewrite rec_const_R, pdict_concat, pdict_flat. reflexivity.
Qed.

Lemma Rmax_below a b c : a <= c -> b <= c -> Rmax a b <= c.
Proof. intros. now apply Rmax_lub. Qed.

(** The published parameters at a mass of 10^9. *)
Lemma default_dwarf : exists d : rec R, DEFAULT_DIFFMAHPOP_PARAMS = Ok d /\ legal_pop d /\
  exists v, pred_logm0_kern "_early" d 9 (138/10) (97/10) = Ok v /\ v < 9.
Proof.
  exists ALL_PDICT. split; [exact published_pdict|]. split.
  { destruct default_legal as (d & E & L). rewrite published_pdict in E. now injection E as <-. }
  eexists. split.
  - apply early_formula; unfold ALL_PDICT; cbn; reflexivity.
  - rewrite !logistic_tail.
    assert (G0 : / (1 + exp (1 / 4 * (138/10 - 151/100))) <= / 16).
    { apply Rinv_le_contravar; [lra|]. pose proof exp_3 as H.
      pose proof (exp_le_compat 3 (1 / 4 * (138/10 - 151/100)) ltac:(lra)). lra. }
    assert (G1 : / 15 <= / (1 + exp (97/10 - 7185/1000))).
    { replace (97/10 - 7185/1000) with (2515/1000) by lra. pose proof exp_2515. pose proof (exp_pos (2515/1000)).
      apply Rinv_le_contravar; lra. }
    match goal with |- 9 + (Rmax ?a ?b + Rmax ?c ?e * _) < 9 =>
      pose proof (Rmax_below a b (298/10000)) as M0; pose proof (Rmax_r c e) as M1;
      set (u := Rmax a b) in *; set (w := Rmax c e) in * end.
    set (q := / (1 + exp (1 / 4 * (138/10 - 151/100)))) in *.
    set (r := / (1 + exp (97/10 - 7185/1000))) in *.
    assert (u <= 298/10000) by (apply M0; lra).
    lra.
Qed.

(** A legal set at the edge of the bounds. *)
Definition EDGE_PDICT : rec R :=
  map (fun kv => match find (fun e => String.eqb (fst kv) (fst e))
      [ ("lgm0pop_c0_ytp_early", 101/10000); ("lgm0pop_c0_ylo_early", -149/1000);
        ("lgm0pop_c0_t_obs_x0_early", 59/10); ("lgm0pop_c0_clip_c0_early", 51/100);
        ("lgm0pop_c1_clip_x0_early", 109/10); ("lgm0pop_c1_clip_ylo_early", 149/1000) ] with
    | Some e => e | None => kv end) ALL_PDICT.

Lemma edge_legal : legal_pop EDGE_PDICT.
Proof.
  split.
  - vm_compute. reflexivity.
  - apply in_bounds_shaped.
    + rewrite pop_bounds_names. apply pop_names_nodup.
    + vm_compute. reflexivity.
    + cbn. repeat constructor; unfold inside; cbn; lra.
Qed.

Lemma edge_formula lgm t : exists v, pred_logm0_kern "_early" EDGE_PDICT lgm t 6 = Ok v /\
  v = lgm + (Rmax (101/10000 + -149/1000 * (1 - logistic (1/4 * (t - 59/10))) * (t - 15)) (51/100 + -9/100 * 6) +
             Rmax (2/1000 + -43/1000 * (1 - logistic (1/4 * (t - 301/100))) * (t - 10))
               (2/1000 + (149/1000 - 2/1000) * (1 - logistic (6 - 109/10))) * (lgm - 12)).
Proof.
  eexists. split; [|reflexivity]. apply early_formula; unfold EDGE_PDICT, ALL_PDICT; cbn; reflexivity.
Qed.

Lemma edge_mass lgm : lgm <= 119/10 -> exists v, pred_logm0_kern "_early" EDGE_PDICT lgm 15 6 = Ok v /\ v < lgm.
Proof.
  intros Hl. destruct (edge_formula lgm 15) as (v & E & F). exists v. split; [exact E|]. clear E. subst v.
  rewrite !logistic_tail.
  assert (G1 : 15/16 <= / (1 + exp (6 - 109/10))).
  { replace (15/16) with (/ (1 + 1/15)) by lra. pose proof (exp_pos (6 - 109/10)).
    apply Rinv_le_contravar; [lra|].
    pose proof (exp_le_compat (6 - 109/10) (- (3)) ltac:(lra)) as H1. rewrite exp_Ropp in H1.
    pose proof exp_3 as H2. apply Rinv_le_contravar in H2; lra. }
  match goal with |- lgm + (Rmax ?a ?b + Rmax ?c ?e * _) < lgm =>
    pose proof (Rmax_below a b (101/10000)) as M0; pose proof (Rmax_r c e) as M1;
    set (u := Rmax a b) in *; set (w := Rmax c e) in * end.
  set (r := / (1 + exp (6 - 109/10))) in *.
  assert (u <= 101/10000) by (apply M0; lra).
  assert (139/1000 <= w) by lra. nra.
Qed.

Lemma edge_time : exists v, pred_logm0_kern "_early" EDGE_PDICT 12 18 6 = Ok v /\ v < 12.
Proof.
  destruct (edge_formula 12 18) as (v & E & F). exists v. split; [exact E|]. clear E. subst v.
  rewrite !logistic_tail.
  assert (G1 : / 29 <= / (1 + exp (1/4 * (18 - 59/10)))).
  { replace (1/4 * (18 - 59/10)) with (3025/1000) by lra. pose proof exp_3025. pose proof (exp_pos (3025/1000)).
    apply Rinv_le_contravar; lra. }
  match goal with |- 12 + (Rmax ?a ?b + _) < 12 =>
    pose proof (Rmax_below a b (-1/1000)) as M0; set (u := Rmax a b) in * end.
  set (r := / (1 + exp (1/4 * (18 - 59/10)))) in *.
  assert (u <= -1/1000) by (apply M0; lra).
  lra.
Qed.

(** ** Which halos get finite parameters *)

Lemma realisation_finite (p : rec R) lgm t tp a b s (m : DiffmahParams xr) d h v : legal_pop p ->
  In (a, b) two_populations -> all_finite d -> 5/100 < tp < 20 ->
  is_mean s b a (xrec p) (Fin lgm) (Fin t) (Fin tp) m -> scattered m d h ->
  pred_logm0_kern s p lgm t tp = Ok v -> 0 < v < 17 ->
  exists q, h = inject q /\ legal q /\ t_peak q = tp /\
    forall x z, 0 < x -> logmh_at_t_obs h (Fin x) (Fin z) = Fin (logmh_at_t_obs q x z).
Proof.
  intros L Hab Hd B Hm Hsc Ev Bv. apply x_is_mean in Hm. destruct Hm as (q & -> & H1 & H2 & H3 & H4 & H5).
  destruct (legal_means p lgm t tp a b L Hab) as (x & y & z & E1 & E2 & E3 & B1 & B2 & B3 & B4).
  rewrite H3 in E1. rewrite H4 in E2. rewrite H2 in E3. apply Ok_inj in E1, E2, E3. subst x y z.
  rewrite H1 in Ev. apply Ok_inj in Ev. subst v.
  assert (Lq : legal q) by (unfold legal; rewrite H5; lra).
  destruct (x_scattered q d h Lq Hd Hsc) as (w & dr & -> & Lw & _ & Sw).
  exists w. refine (conj eq_refl (conj Lw (conj _ _))).
  - rewrite (scattered_tp_R q dr w Sw); [exact H5|rewrite H5; exact B].
  - intros x z Hx. apply x_log_mah_fin; [exact Hx|]. destruct Lw as (_ & _ & _ & _ & Bw). lra.
Qed.

Lemma realisation_nan (p : rec R) lgm t tp a b s (m : DiffmahParams xr) d h v :
  is_mean s b a (xrec p) (Fin lgm) (Fin t) (Fin tp) m -> scattered m d h ->
  pred_logm0_kern s p lgm t tp = Ok v -> 17 < v ->
  logm0 h = NaN /\ forall x z, logmh_at_t_obs h x z = NaN.
Proof.
  intros Hm Hsc Ev Bv. apply x_is_mean in Hm. destruct Hm as (q & -> & H1 & _).
  rewrite H1 in Ev. apply Ok_inj in Ev. subst v.
  assert (E : logm0 h = NaN).
  { eapply scattered_big; [exact Hsc|]. right. right. eexists. split; [reflexivity|exact Bv]. }
  split; [exact E|]. intros x z. apply x_log_mah_nan_params. now left.
Qed.

(** The published parameters keep the mean mass inside its bounds up to
    clusters of 10^15 after 3 Gyr. *)
Lemma published_bounds s lgm t tp v : In s four_populations -> 3 <= t <= 15 -> 0 < tp -> 10 <= lgm <= 15 ->
  pred_logm0_kern s ALL_PDICT lgm t tp = Ok v -> 0 < v < 17.
Proof.
  intros Hs Ht Htp Hl.
  assert (G : forall y0 l0 a0 b0 x0 y1 l1 c1 a1 b1 x1 : R,
    getattr ALL_PDICT ("lgm0pop_c0_ytp" ++ s) = Ok y0 -> getattr ALL_PDICT ("lgm0pop_c0_ylo" ++ s) = Ok l0 ->
    getattr ALL_PDICT ("lgm0pop_c0_clip_c0" ++ s) = Ok a0 -> getattr ALL_PDICT ("lgm0pop_c0_clip_c1" ++ s) = Ok b0 ->
    getattr ALL_PDICT ("lgm0pop_c0_t_obs_x0" ++ s) = Ok x0 ->
    getattr ALL_PDICT ("lgm0pop_c1_ytp" ++ s) = Ok y1 -> getattr ALL_PDICT ("lgm0pop_c1_ylo" ++ s) = Ok l1 ->
    getattr ALL_PDICT ("lgm0pop_c1_clip_x0" ++ s) = Ok c1 -> getattr ALL_PDICT ("lgm0pop_c1_clip_ylo" ++ s) = Ok a1 ->
    getattr ALL_PDICT ("lgm0pop_c1_clip_yhi" ++ s) = Ok b1 -> getattr ALL_PDICT ("lgm0pop_c1_t_obs_x0" ++ s) = Ok x1 ->
    1/100 < y0 <= 2/100 -> -14/100 <= l0 < 0 -> a0 < 9/10 -> b0 < 0 -> x0 <= 3 ->
    1/1000 < y1 <= 27/1000 -> -48/1000 <= l1 < 0 -> 2/100 < a1 < 15/100 -> 1/1000 < b1 < 5/100 ->
    pred_logm0_kern s ALL_PDICT lgm t tp = Ok v -> 0 < v < 17).
  { intros y0 l0 a0 b0 x0 y1 l1 c1 a1 b1 x1 E1 E2 E3 E4 E5 E6 E7 E8 E9 E10 E11 B1 B2 B3 B4 B5 B6 B7 B8 B9.
    unfold pred_logm0_kern, pred_c0_kern, pred_c1_kern. rewrite E1, E2, E3, E4, E5. cbn [bind].
    rewrite E6, E7, E8, E9, E10, E11. cbn [bind].
    intros H. apply Ok_inj in H. subst v. rewrite !clip_min_R.
    unfold sig_slope, LGM0_C0_XTP, LGM0_C1_XTP, TP_LGMP. cbn [nadd nmul nsub nconst Num_R].
    pose proof (sigmoid_range_le t x1 LGM0_GLOBAL_K l1 0 (-48/1000) 0 ltac:(lra) ltac:(lra)) as S1.
    pose proof (sigmoid_range tp c1 LGM0_CLIP_TP_K a1 b1 (1/1000) (15/100) ltac:(lra) ltac:(lra)) as S2.
    assert (S0 : -7/100 <= sigmoid t x0 LGM0_GLOBAL_K l0 0 <= 0).
    { unfold sigmoid, LGM0_GLOBAL_K. cbn [nadd nmul nsub nconst nlogistic Num_R].
      assert (H0 : 1/2 <= logistic (1 / 4 * (t - x0)) <= 1).
      { pose proof (logistic_tail (1 / 4 * (t - x0))) as T. pose proof (exp_ineq1_le (1 / 4 * (t - x0))) as T1.
        pose proof (exp_pos (1 / 4 * (t - x0))) as T2.
        assert (/ (1 + exp (1 / 4 * (t - x0))) <= / 2) by (apply Rinv_le_contravar; lra).
        assert (0 < / (1 + exp (1 / 4 * (t - x0)))) by (apply Rinv_0_lt_compat; lra). lra. }
      nra. }
    set (s0 := sigmoid t x0 LGM0_GLOBAL_K l0 0) in *. set (s1 := sigmoid t x1 LGM0_GLOBAL_K l1 0) in *.
    set (q := sigmoid tp c1 LGM0_CLIP_TP_K a1 b1) in *.
    assert (C0 : 1/100 < Rmax (y0 + s0 * (t - 15)) (a0 + b0 * tp) < 9/10).
    { split; [eapply Rlt_le_trans; [|apply Rmax_l]; nra|]. apply Rmax_lub_lt; nra. }
    assert (C1 : 1/1000 < Rmax (y1 + s1 * (t - 10)) q < 3635/10000).
    { split; [eapply Rlt_le_trans; [|apply Rmax_r]; lra|]. apply Rmax_lub_lt; nra. }
    set (c0 := Rmax (y0 + s0 * (t - 15)) (a0 + b0 * tp)) in *. set (c1' := Rmax (y1 + s1 * (t - 10)) q) in *. nra. }
  destruct Hs as [<-|[<-|[<-|[<-|[]]]]];
    (eapply G; [unfold ALL_PDICT; cbn; reflexivity..| | | | | | | | |]; lra).
Qed.
