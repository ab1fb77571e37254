(** Dual-number differentiation of the peak times. *)

From Coq Require Import Reals String List Bool Arith ZArith Lia Lra.
From Coquelicot Require Import Coquelicot.
From Verif Require Import Model_Num RealAux Model_Base Model_Kernels Model_Utils Model_PopBase Model_PopData
  Model_PopParams Model_PopKernels Model_PopMC Model_Grad Spec_Utils Spec_Pop Spec_TruncNorm Spec_Grad
  Proofs_Kernels Proofs_AD Proofs_PopBase
  Proofs_PopInterp Proofs_PopKernels Proofs_PopCov Proofs_PopTpeak Proofs_PopAD Proofs_PopAD2 Proofs_PopAD3.
Import ListNotations.
Local Open Scope R_scope.
Local Open Scope string_scope.

Local Notation TAB := (linspace 0%R 1%R 200).

Lemma exp3_le : exp 3 <= 27.
Proof.
  replace 3 with (1 + 1 + 1) at 1 by ring. rewrite !exp_plus. pose proof exp_le_3 as H. pose proof (exp_pos 1) as H0.
  nra.
Qed.
Lemma exp9_le : exp 9 <= 19683.
Proof.
  replace 9 with (3 + 3 + 3) by ring. rewrite !exp_plus. pose proof exp3_le as H. pose proof (exp_pos 3) as H0.
  assert (exp 3 * exp 3 <= 27 * 27) by nra. nra.
Qed.

Lemma two46 : / 2 ^ 46 < / 70000000000000.
Proof. apply Rinv_lt_contravar; [|lra]. apply Rmult_lt_0_compat; lra. Qed.

Lemma logistic_gap a b : -9 <= a -> b <= 3 -> 5/199 <= b - a -> / 2 ^ 46 < logistic b - logistic a.
Proof.
  intros Ha Hb Hd. unfold logistic.
  set (A := exp (- a)). set (B := exp (- b)).
  assert (HA0 : 0 < A) by apply exp_pos. assert (HB0 : 0 < B) by apply exp_pos.
  assert (HA : A <= 19683).
  { apply Rle_trans with (exp 9); [|apply exp9_le]. unfold A. destruct (Rle_lt_or_eq_dec (-a) 9) as [L|E]; [lra| |].
    - left. now apply exp_increasing.
    - rewrite E. lra. }
  assert (HB : 1/27 <= B).
  { apply Rle_trans with (exp (-3)).
    - replace (-3) with (Ropp 3) by ring. rewrite exp_Ropp. apply Rmult_le_reg_l with (exp 3); [apply exp_pos|].
      rewrite Rinv_r by (apply Rgt_not_eq, exp_pos). pose proof exp3_le. lra.
    - unfold B. destruct (Rle_lt_or_eq_dec (-3) (-b)) as [L|E]; [lra| |].
      + left. now apply exp_increasing.
      + rewrite E. lra. }
  assert (HAB : A = B * exp (b - a)).
  { unfold A, B. rewrite <- exp_plus. f_equal. ring. }
  assert (HE : 1 + (b - a) <= exp (b - a)) by apply exp_ineq1_le.
  assert (HN : 1/27 * (5/199) <= A - B) by (rewrite HAB; nra).
  assert (HBA : B <= A) by nra.
  replace (/ (1 + B) - / (1 + A)) with ((A - B) / ((1 + A) * (1 + B))) by (field; lra).
  eapply Rlt_le_trans; [apply two46|].
  apply Rmult_le_reg_r with ((1 + A) * (1 + B)); [nra|].
  unfold Rdiv. rewrite Rmult_assoc, Rinv_l, Rmult_1_r by nra.
  assert ((1 + A) * (1 + B) <= 19684 * 19684) by nra.
  nra.
Qed.

Lemma FP_gap x0 u v : 1/2 < x0 < 18/10 -> 0 <= u -> v <= 1 -> v - u = 1/199 -> / 2 ^ 46 < FP x0 v - FP x0 u.
Proof.
  intros Hx Hu Hv Hd. unfold FP. rewrite !sigmoid_R. unfold TPC_K, TPC_YLO, TPC_YHI. cbn [nconst Num_R].
  pose proof (logistic_gap (5 * (u - x0)) (5 * (v - x0)) ltac:(lra) ltac:(lra) ltac:(lra)). lra.
Qed.

Lemma I199 : INR (200 - 1) = 199.
Proof. cbn; lra. Qed.

Lemma TAB_nth i : (i < 200)%nat -> nth i TAB 0 = INR i / 199.
Proof. intros H. rewrite linspace_nth by lia. replace (INR (200 - 1)) with 199 by (cbn; lra). lra. Qed.

Lemma FPTAB_nth x0 i : (i < 200)%nat -> nth i (map (FP x0) TAB) 0 = FP x0 (INR i / 199).
Proof.
  intros H. rewrite nth_indep with (d' := FP x0 0) by (rewrite map_length, len200; lia).
  rewrite map_nth. now rewrite TAB_nth.
Qed.

Lemma FPTAB_gap x0 i : 1/2 < x0 < 18/10 -> (S i < 200)%nat ->
  / 2 ^ 46 < nth (S i) (map (FP x0) TAB) 0 - nth i (map (FP x0) TAB) 0.
Proof.
  intros Hx Hi. rewrite !FPTAB_nth by lia.
  assert (INR (S i) <= 199) by (replace 199 with (INR 199) by (cbn; lra); apply le_INR; lia).
  pose proof (pos_INR i). rewrite S_INR in *. apply FP_gap; lra.
Qed.

(** The value of the interpolation where it is constant. *)
Lemma interp_below x0 u : u < FP x0 0 -> interp u (map (FP x0) TAB) TAB = 0.
Proof.
  intros H. destruct (interp_cases u (map (FP x0) TAB) TAB (FP_table_sorted x0)) as [[H1 H2]|[[H1 H2]|[H1 H2]]].
  - now rewrite map_length.
  - rewrite map_length, len200. lia.
  - rewrite H2, TAB_nth by lia. cbn. lra.
  - rewrite map_length, len200, FPTAB_nth in H1 by lia. exfalso.
    assert (FP x0 0 < FP x0 (INR (200 - 1) / 199)) by (apply FP_strict; rewrite I199; lra). lra.
  - rewrite FPTAB_nth in H1 by lia. change (INR 0) with 0 in H1. replace (0 / 199) with 0 in H1 by lra. lra.
Qed.

Lemma interp_above x0 u : FP x0 1 < u -> interp u (map (FP x0) TAB) TAB = 1.
Proof.
  intros H. assert (E1 : INR (200 - 1) / 199 = 1) by (rewrite I199; lra).
  destruct (interp_cases u (map (FP x0) TAB) TAB (FP_table_sorted x0)) as [[H1 H2]|[[H1 H2]|[H1 H2]]].
  - now rewrite map_length.
  - rewrite map_length, len200. lia.
  - rewrite FPTAB_nth in H1 by lia. change (INR 0) with 0 in H1. exfalso.
    assert (FP x0 (0/199) < FP x0 1) by (apply FP_strict; lra). lra.
  - rewrite H2, map_length, len200, TAB_nth by lia. exact E1.
  - rewrite map_length, len200, (FPTAB_nth x0 (200 - 1)) in H1 by lia. rewrite E1 in H1. lra.
Qed.

Lemma rel_utp_x0 x P D fm ft dm dt v : get_utp_x0_from_lgm (P x) (fm x) (ft x) = Ok v -> rt x P D ->
  tracks fm x dm -> tracks ft x dt ->
  rel (fun f d => tracks f x d) (fun y => get_utp_x0_from_lgm (P y) (fm y) (ft y)) (get_utp_x0_from_lgm D dm dt).
Proof.
  intros Hx HP Hm Ht. unfold get_utp_x0_from_lgm in *.
  rget Hx HP f1 d1 H1 V1. rget Hx HP f2 d2 H2 V2. rget Hx HP f3 d3 H3 V3. rget Hx HP f4 d4 H4 V4.
  rget Hx HP f5 d5 H5 V5. rget Hx HP f6 d6 H6 V6. clear Hx. unfold UTP_LGM_X0_K, UTP_T_OBS_X0_K.
  apply (rel_ok (fun f d => tracks f x d) (fun y => _)). tk.
Qed.

(** The draw of a central is pinned to an end of the table or to the floor. *)
Definition pinned (tab : list R) (u : R) : Prop :=
  u < nth 0 tab 0 \/ nth 199 tab 0 < u \/ interp u tab UTP_TABLE < 5/100.

Lemma rel_tpeak_cen x P D fm ft dm dt t0 u :
  provides TPCENS_FLEX (P x) -> rt x P D -> tracks fm x dm -> tracks ft x dt ->
  (forall tab, frac_peaked_vs_lgm (P x) UTP_TABLE (fm x) (ft x) = Ok tab ->
     ~ In u tab /\ interp u tab UTP_TABLE <> 5/100) ->
  rel (fun f d => tracks f x d /\
         (forall tab, frac_peaked_vs_lgm (P x) UTP_TABLE (fm x) (ft x) = Ok tab ->
            f x = Rmax (interp u tab UTP_TABLE) (5/100) * Rpower 10 t0 /\
            (pinned tab u -> locally x (fun y => f y = f x))))
    (fun y => tpeak_cen_of_uran (P y) (fm y) (ft y) (npow10 t0) (nconst u))
    (tpeak_cen_of_uran D dm dt (npow10 (dlift t0)) (nconst u)).
Proof.
  intros PV HP Hm Ht HC.
  destruct (utp_x0_ok (P x) (fm x) (ft x) PV) as (x0 & E0 & B0).
  destruct (rel_utp_x0 x P D fm ft dm dt x0 E0 HP Hm Ht) as (fx & dx & EX & ED & TX).
  assert (EFX : fx x = x0) by (rewrite EX in E0; now injection E0).
  set (tb := fun y => map (FP (fx y)) TAB).
  set (tbd := map (fun v => sigmoid v dx TPC_K TPC_YLO TPC_YHI) (UTP_TABLE : list (Dual R))).
  assert (ET : forall y, frac_peaked_vs_lgm (P y) UTP_TABLE (fm y) (ft y) = Ok (tb y)).
  { intros y. unfold frac_peaked_vs_lgm. now rewrite EX. }
  assert (ETD : frac_peaked_vs_lgm D UTP_TABLE dm dt = Ok tbd).
  { unfold frac_peaked_vs_lgm. now rewrite ED. }
  assert (LTAB : LT x (fun _ => TAB) UTP_TABLE).
  { exact (LT_linspace x (fun _ => nconst 0) (fun _ => nconst 1) (nconst 0) (nconst 1) 200 (t_const x 0) (t_const x 1)). }
  assert (LTB : LT x tb tbd).
  { unfold tb, tbd, LT. apply (LT_map (fun f d => tracks f x d) _ (fun y v => FP (fx y) v) _ (fun _ => TAB)); [exact LTAB|].
    intros f d Hf. unfold FP, TPC_K, TPC_YLO, TPC_YHI. tk. }
  destruct (HC (tb x) (ET x)) as [N1 N2].
  assert (TI : tracks (fun y => interp u (tb y) TAB) x (interp (nconst u) tbd UTP_TABLE)).
  { apply (t_interp x (fun _ => u) (nconst u) tb tbd (fun _ => TAB) UTP_TABLE); auto.
    - apply t_const.
    - unfold tbd. rewrite map_length, <- (LT_length _ _ _ LTAB x), len200. lia.
    - intros i Hi. unfold tb, tbd in *. rewrite map_length, <- (LT_length _ _ _ LTAB x), len200 in Hi.
      rewrite EFX. now apply FPTAB_gap. }
  assert (TU : tracks (fun y => clip_min (interp u (tb y) TAB) UTP_MIN) x (clip_min (interp (nconst u) tbd UTP_TABLE) UTP_MIN)).
  { apply (t_clip_min x (fun y => _) (fun _ => UTP_MIN)); [exact TI|apply t_const|exact N2]. }
  exists (fun y => nmul (clip_min (interp u (tb y) TAB) UTP_MIN) (npow10 t0)),
    (nmul (clip_min (interp (nconst u) tbd UTP_TABLE) UTP_MIN) (npow10 (dlift t0))).
  split; [|split; [|split]].
  - intros y. unfold tpeak_cen_of_uran, utp_of_uran. rewrite ET. reflexivity.
  - unfold tpeak_cen_of_uran, utp_of_uran. rewrite ETD. reflexivity.
  - apply (t_mul x (fun y => _) (fun y => _)); [exact TU|].
    apply (t_pow10 x (fun _ => t0)). apply tracks_lift.
  - intros tab Etab. rewrite ET in Etab. injection Etab as <-. rewrite utp_table. cbv beta.
    split; [now rewrite clip_min_R|].
    intros Hpin. cut (locally x (fun y => clip_min (interp u (tb y) TAB) UTP_MIN = clip_min (interp u (tb x) TAB) UTP_MIN)).
    { apply filter_imp. intros y ->. reflexivity. }
    assert (TF : forall v, tracks (fun y => FP (fx y) v) x (sigmoid (nconst v) dx TPC_K TPC_YLO TPC_YHI)).
    { intros v. unfold FP, TPC_K, TPC_YLO, TPC_YHI. pose proof (t_const x v) as Hv. tk. }
    destruct Hpin as [H|[H|H]].
    + unfold tb in H. rewrite FPTAB_nth in H by lia. change (INR 0) with 0 in H. replace (0/199) with 0 in H by lra.
      pose proof (near_lt x (fun _ => u) (fun y => FP (fx y) 0) (continuous_const _ _) (tracks_cont _ _ _ (TF 0)) H) as HL.
      revert HL. apply filter_imp. intros y Hy. unfold tb. now rewrite !interp_below.
    + unfold tb in H. rewrite FPTAB_nth in H by lia. replace (INR 199 / 199) with 1 in H by (change 199%nat with (200 - 1)%nat; rewrite I199; lra).
      pose proof (near_lt x (fun y => FP (fx y) 1) (fun _ => u) (tracks_cont _ _ _ (TF 1)) (continuous_const _ _) H) as HL.
      revert HL. apply filter_imp. intros y Hy. unfold tb. now rewrite !interp_above.
    + pose proof (near_lt x (fun y => interp u (tb y) TAB) (fun _ => 5/100) (tracks_cont _ _ _ TI) (continuous_const _ _) H) as HL.
      revert HL. apply filter_imp. intros y Hy. rewrite utp_table in H. rewrite !clip_min_R. unfold UTP_MIN. cbn [nconst Num_R].
      rewrite !Rmax_right; lra.
Qed.
