(** Dual-number differentiation of the peak times of satellites. *)

From Coq Require Import Reals String List Bool Arith ZArith Lia Lra.
From Coquelicot Require Import Coquelicot.
From Verif Require Import Model_Num RealAux Model_Base Model_Kernels Model_Utils Model_PopBase Model_PopData
  Model_PopParams Model_PopKernels Model_PopMC Model_Grad Spec_Utils Spec_Pop Spec_TruncNorm Spec_Grad
  Proofs_Kernels Proofs_AD Proofs_PopBase
  Proofs_PopInterp Proofs_PopKernels Proofs_PopCov Proofs_PopTpeak Proofs_PopAD Proofs_PopAD2 Proofs_PopAD3
  Proofs_PopAD4.
Import ListNotations.
Local Open Scope R_scope.
Local Open Scope string_scope.

Lemma exp_m8 : 1/6561 <= exp (-8).
Proof.
  replace (-8) with (Ropp 8) by ring. rewrite exp_Ropp. apply Rmult_le_reg_l with (exp 8); [apply exp_pos|].
  rewrite Rinv_r by (apply Rgt_not_eq, exp_pos).
  assert (E : exp 8 <= 6561).
  { replace 8 with (1 + 1 + 3 + 3) by ring. rewrite !exp_plus. pose proof exp3_le. pose proof exp_le_3.
    pose proof (exp_pos 1). pose proof (exp_pos 3).
    assert (exp 1 * exp 1 <= 9) by nra. assert (exp 1 * exp 1 * exp 3 <= 9 * 27) by nra. nra. }
  lra.
Qed.

Lemma gauss_le_1 t : gauss t <= 1.
Proof.
  unfold gauss. rewrite <- exp_0. destruct (Req_dec t 0) as [->|H].
  - right. f_equal. lra.
  - left. apply exp_increasing. nra.
Qed.

Lemma gauss_ge t : -4 <= t <= 4 -> exp (-8) <= gauss t.
Proof.
  intros H. unfold gauss. destruct (Rle_lt_or_eq_dec (-8) (- (t * t) / 2)) as [L|E]; [nra| |].
  - left. now apply exp_increasing.
  - rewrite E. lra.
Qed.

Lemma RInt_gauss_le a b : a <= b -> RInt gauss a b <= b - a.
Proof.
  intros H. replace (b - a) with (RInt (fun _ => 1) a b).
  - apply RInt_le; auto using gauss_int, gauss_le_1. apply ex_RInt_const.
  - rewrite RInt_const. unfold scal; cbn; unfold mult; cbn. ring.
Qed.

Lemma RInt_gauss_ge a b : -4 <= a -> a <= b -> b <= 4 -> (b - a) / 6561 <= RInt gauss a b.
Proof.
  intros H1 H H2. replace ((b - a) / 6561) with (RInt (fun _ => 1 / 6561) a b).
  - apply RInt_le; auto using gauss_int; [apply ex_RInt_const|]. intros t Ht.
    pose proof (gauss_ge t ltac:(lra)). pose proof exp_m8. lra.
  - rewrite RInt_const. unfold scal; cbn; unfold mult; cbn. field.
Qed.

Lemma trunc_gap loc scale x y : 15/100 < loc < 95/100 -> 1/10 < scale < 6/10 ->
  1/10 < x -> x < y -> y < 1 -> loc - 4 * scale <= x -> y <= loc + 4 * scale -> 2/1000 <= y - x ->
  / 2 ^ 46 < tp_cdf_kern truncnorm_cdf_R y (loc, scale) - tp_cdf_kern truncnorm_cdf_R x (loc, scale).
Proof.
  intros Hl Hs Hx Hxy Hy L1 L2 Hd. rewrite !trunc_params by lra.
  set (a := (1/10 - loc) / scale). set (b := (1 - loc) / scale).
  assert (Hz : forall z, 1/10 < z < 1 -> a < (z - loc) / scale < b).
  { intros z Hz. unfold a, b. split; apply Rmult_lt_compat_r; try (apply Rinv_0_lt_compat; lra); lra. }
  assert (E : forall z, 1/10 < z < 1 -> truncnorm_cdf_R z a b loc scale = RInt gauss a ((z - loc) / scale) / RInt gauss a b).
  { intros z Hz'. destruct (Hz z Hz') as [Z1 Z2]. unfold truncnorm_cdf_R. cbv zeta.
    destruct Rle_dec; [lra|]. destruct Rle_dec; [lra|]. reflexivity. }
  rewrite !E by lra.
  assert (Hab : a < b) by (unfold a, b; apply Rmult_lt_compat_r; [apply Rinv_0_lt_compat; lra|lra]).
  pose proof (gauss_RInt_pos a b Hab) as HP.
  assert (HD : RInt gauss a b <= 9).
  { eapply Rle_trans; [apply RInt_gauss_le; lra|]. unfold a, b.
    replace ((1 - loc) / scale - (1 / 10 - loc) / scale) with (9/10 / scale) by (field; lra).
    apply Rmult_le_reg_r with scale; [lra|]. unfold Rdiv at 1. rewrite Rmult_assoc, Rinv_l, Rmult_1_r by lra. lra. }
  assert (HC : RInt gauss a ((y - loc) / scale) = RInt gauss a ((x - loc) / scale) + RInt gauss ((x - loc) / scale) ((y - loc) / scale)).
  { symmetry. exact (RInt_Chasles gauss a _ _ (gauss_int _ _) (gauss_int _ _)). }
  rewrite HC.
  assert (Hq : forall z, z / scale * scale = z) by (intros; field; lra).
  assert (Z1 : -4 <= (x - loc) / scale).
  { apply Rmult_le_reg_r with scale; [lra|]. rewrite Hq. lra. }
  assert (Z2 : (y - loc) / scale <= 4).
  { apply Rmult_le_reg_r with scale; [lra|]. rewrite Hq. lra. }
  assert (Z3 : (x - loc) / scale <= (y - loc) / scale).
  { apply Rmult_le_reg_r with scale; [lra|]. rewrite !Hq. lra. }
  pose proof (RInt_gauss_ge _ _ Z1 Z3 Z2) as HG.
  assert (Z4 : 1/300 <= (y - loc) / scale - (x - loc) / scale).
  { replace ((y - loc) / scale - (x - loc) / scale) with ((y - x) / scale) by (field; lra).
    apply Rmult_le_reg_r with scale; [lra|]. rewrite Hq. lra. }
  set (I := RInt gauss ((x - loc) / scale) ((y - loc) / scale)) in *.
  set (J := RInt gauss a ((x - loc) / scale)). set (K := RInt gauss a b) in *.
  replace ((J + I) / K - J / K) with (I / K) by (field; lra).
  assert (HI : 1/300/6561 <= I) by lra.
  eapply Rlt_le_trans; [apply two46|].
  apply Rmult_le_reg_r with K; [lra|]. unfold Rdiv at 1. rewrite Rmult_assoc, Rinv_l, Rmult_1_r by lra. lra.
Qed.

Lemma rel_loc x P D fm ft dm dt v : get_utp_loc (P x) (fm x) (ft x) = Ok v -> rt x P D ->
  tracks fm x dm -> tracks ft x dt ->
  rel (fun f d => tracks f x d) (fun y => get_utp_loc (P y) (fm y) (ft y)) (get_utp_loc D dm dt).
Proof.
  intros Hx HP Hm Ht. unfold get_utp_loc in *.
  eapply rel_bind with (T := fun f d => tracks f x d); [exact Hx| |].
  - intros a Ha. clear Hx. unfold get_utp_loc_lgm_ylo in *.
    rget Ha HP f1 d1 H1 V1. rget Ha HP f2 d2 H2 V2. rget Ha HP f3 d3 H3 V3. unfold UTP_LOC_TOBS_K.
    apply (rel_ok (fun f d => tracks f x d) (fun y => _)). tk.
  - intros f d _ Hf Hx'. clear Hx. rename Hx' into Hx. cbn beta in *.
    rget Hx HP f1 d1 H1 V1. unfold UTP_LOC_LGM_K, UTP_LOC_LGM_YHI.
    apply (rel_ok (fun f d => tracks f x d) (fun y => _)). tk.
Qed.

Lemma rel_scale x P D fm ft dm dt v : get_utp_scale (P x) (fm x) (ft x) = Ok v -> rt x P D ->
  tracks fm x dm -> tracks ft x dt ->
  rel (fun f d => tracks f x d) (fun y => get_utp_scale (P y) (fm y) (ft y)) (get_utp_scale D dm dt).
Proof.
  intros Hx HP Hm Ht. unfold get_utp_scale in *.
  eapply rel_bind with (T := fun f d => tracks f x d); [exact Hx| |].
  - intros a Ha. clear Hx. unfold get_utp_scale_lgm_ylo in *.
    rget Ha HP f1 d1 H1 V1. rget Ha HP f2 d2 H2 V2. rget Ha HP f3 d3 H3 V3. unfold UTP_SCALE_TOBS_K.
    apply (rel_ok (fun f d => tracks f x d) (fun y => _)). tk.
  - intros f d _ Hf Hx'. clear Hx. cbn beta in *. unfold UTP_SCALE_LGM_X0, UTP_SCALE_LGM_K, UTP_SCALE_LGM_YHI.
    apply (rel_ok (fun f d => tracks f x d) (fun y => _)). tk.
Qed.

Section Sat.
  Context (F : Dual R -> Dual R -> Dual R -> Dual R -> Dual R -> Dual R) (HF : exact_truncnorm F).

  Lemma t_cdf x ft dt floc fsc dl ds : tracks ft x dt -> tracks floc x dl -> tracks fsc x ds -> 0 < fsc x ->
    1/10 < ft x < 1 ->
    tracks (fun y => tp_cdf_kern truncnorm_cdf_R (ft y) (floc y, fsc y)) x (tp_cdf_kern F dt (dl, ds)).
  Proof.
    intros Ht Hl Hs Hp Hr. unfold tp_cdf_kern, get_a_b_loc_scale.
    apply (HF x ft (fun y => _) (fun y => _) floc fsc); auto.
    - apply (t_div x (fun y => _) (fun y => _)); [|exact Hs|lra]. unfold X_MIN. tk.
    - apply (t_div x (fun y => _) (fun y => _)); [|exact Hs|lra]. unfold X_MAX. tk.
    - cbn. split; apply Rmult_lt_compat_r; try (apply Rinv_0_lt_compat; lra); lra.
  Qed.

  Lemma rel_tpeak_sat x P D fm ft dm dt u :
    provides TP_SATS (P x) -> rt x P D -> tracks fm x dm -> tracks ft x dt ->
    (forall loc scale, get_utp_loc (P x) (fm x) (ft x) = Ok loc -> get_utp_scale (P x) (fm x) (ft x) = Ok scale ->
       loc - 4 * scale <> 1001/10000 /\ loc + 4 * scale <> 9999/10000 /\
       ~ In u (map (fun z => tp_cdf_kern truncnorm_cdf_R z (loc, scale)) (linspace (XLO loc scale) (XHI loc scale) 50))) ->
    rel (fun f d => tracks f x d)
      (fun y => tpeak_sat_of_uran truncnorm_cdf_R (P y) (fm y) (ft y) (nconst u))
      (tpeak_sat_of_uran F D dm dt (nconst u)).
  Proof.
    intros PV HP Hm Ht HC.
    destruct (sat_loc_scale (P x) (fm x) (ft x) PV) as (loc & scale & EL & ES & BL & BS).
    destruct (rel_loc x P D fm ft dm dt loc EL HP Hm Ht) as (fl & dl & ELy & ELd & TL).
    destruct (rel_scale x P D fm ft dm dt scale ES HP Hm Ht) as (fs & ds & ESy & ESd & TS).
    assert (VL : fl x = loc) by (rewrite ELy in EL; now injection EL).
    assert (VS : fs x = scale) by (rewrite ESy in ES; now injection ES).
    destruct (HC loc scale EL ES) as (N1 & N2 & N3).
    set (lo := fun y => nmaximum (nsub (fl y) (nmul (nconst 4) (fs y))) (nadd X_MIN UTP_EPS) : R).
    set (hi := fun y => nminimum (nadd (fl y) (nmul (nconst 4) (fs y))) (nsub X_MAX UTP_EPS) : R).
    set (lod := nmaximum (nsub dl (nmul (nconst 4) ds)) (nadd X_MIN UTP_EPS)).
    set (hid := nminimum (nadd dl (nmul (nconst 4) ds)) (nsub X_MAX UTP_EPS)).
    assert (TLO : tracks lo x lod).
    { unfold lo, lod, X_MIN, UTP_EPS. apply (t_max x (fun y => _) (fun y => _)); tk.
      rewrite VL, VS. cbn. replace (1/10 + 1/10000) with (1001/10000) by lra. exact N1. }
    assert (THI : tracks hi x hid).
    { unfold hi, hid, X_MAX, UTP_EPS. apply (t_min x (fun y => _) (fun y => _)); tk.
      rewrite VL, VS. cbn. replace (1 - 1/10000) with (9999/10000) by lra. exact N2. }
    assert (ELO : lo x = XLO loc scale).
    { unfold lo, XLO, X_MIN, UTP_EPS. rewrite nmaximum_R, VL, VS. cbn. f_equal. lra. }
    assert (EHI : hi x = XHI loc scale).
    { unfold hi, XHI, X_MAX, UTP_EPS. rewrite nminimum_R, VL, VS. cbn. f_equal. lra. }
    destruct (sat_window loc scale ltac:(lra) ltac:(lra)) as (W1 & W2 & W3).
    assert (WL : XLO loc scale <= loc - 499/10000).
    { unfold XLO, Rmax. destruct Rle_dec; lra. }
    assert (WH : loc + 499/10000 <= XHI loc scale).
    { unfold XHI, Rmin. destruct Rle_dec; lra. }
    assert (W4 : loc - 4 * scale <= XLO loc scale) by (unfold XLO; apply Rmax_l).
    assert (W5 : XHI loc scale <= loc + 4 * scale) by (unfold XHI; apply Rmin_l).
    pose proof (LT_linspace x lo hi lod hid 50 TLO THI) as LX.
    assert (LC : LT x (fun y => map (fun z => tp_cdf_kern truncnorm_cdf_R z (fl y, fs y)) (linspace (lo y) (hi y) 50))
                   (map (fun z => tp_cdf_kern F z (dl, ds)) (linspace lod hid 50))).
    { unfold linspace. rewrite !map_map.
      apply (LT_ext _ (fun y => map (fun i => tp_cdf_kern truncnorm_cdf_R
               (nadd (nmul (lo y) (nsub (nconst 1) (nconst (INR i / INR (50 - 1))))) (nmul (hi y) (nconst (INR i / INR (50 - 1)))))
               (fl y, fs y)) (seq 0 50))).
      { intros y. now rewrite map_map. }
      apply (LT_const_map (fun f d => tracks f x d) (fun y i => _)). intros i Hi. apply in_seq in Hi.
      assert (Hp : 0 < fs x) by (rewrite VS; lra).
      apply (t_cdf x (fun y => _) _ fl fs dl ds); [tk|exact TL|exact TS|exact Hp|].
      rewrite ELO, EHI. cbn [nadd nmul nsub nconst Num_R].
      assert (I49 : INR (50 - 1) = 49) by (cbn; lra). rewrite I49.
      assert (Hq : 0 <= INR i / 49 <= 1).
      { split; [apply Rmult_le_pos; [apply pos_INR|lra]|].
        assert (INR i <= INR 49) by (apply le_INR; lia). replace (INR 49) with 49 in H by (cbn; lra). lra. }
      nra. }
    assert (TI : tracks (fun y => interp u (map (fun z => tp_cdf_kern truncnorm_cdf_R z (fl y, fs y)) (linspace (lo y) (hi y) 50))
                     (linspace (lo y) (hi y) 50)) x
                   (interp (nconst u) (map (fun z => tp_cdf_kern F z (dl, ds)) (linspace lod hid 50)) (linspace lod hid 50))).
    { apply (t_interp x (fun _ => u) (nconst u) (fun y => _) _ (fun y => _) _); auto.
      - apply t_const.
      - rewrite map_length. unfold linspace. rewrite map_length, seq_length. lia.
      - rewrite ELO, EHI, VL, VS. exact N3.
      - intros i Hi. rewrite map_length in Hi. unfold linspace in Hi at 1. rewrite map_length, seq_length in Hi.
        cbv beta. rewrite ELO, EHI, VL, VS.
        set (G := fun z => tp_cdf_kern truncnorm_cdf_R z (loc, scale)).
        assert (NG : forall k, (k < 50)%nat -> nth k (map G (linspace (XLO loc scale) (XHI loc scale) 50)) 0
                     = G (XLO loc scale + (XHI loc scale - XLO loc scale) * (INR k / 49))).
        { intros k Hk. rewrite nth_indep with (d' := G 0) by (rewrite map_length, linspace_length; lia).
          rewrite map_nth, linspace_nth by lia. do 3 f_equal. f_equal. cbn; lra. }
        rewrite !NG by lia. unfold G.
        assert (B : INR (S i) <= 49) by (replace 49 with (INR 49) by (cbn; lra); apply le_INR; lia).
        pose proof (pos_INR i) as P0. rewrite S_INR in *.
        apply trunc_gap; auto; try nra. }
    exists (fun y => nmul (interp u (map (fun z => tp_cdf_kern truncnorm_cdf_R z (fl y, fs y)) (linspace (lo y) (hi y) 50))
                     (linspace (lo y) (hi y) 50)) (ft y)),
      (nmul (interp (nconst u) (map (fun z => tp_cdf_kern F z (dl, ds)) (linspace lod hid 50)) (linspace lod hid 50)) dt).
    split; [|split].
    - intros y. unfold tpeak_sat_of_uran. rewrite ELy, ESy. reflexivity.
    - unfold tpeak_sat_of_uran. rewrite ELd, ESd. reflexivity.
    - apply (t_mul x (fun y => _) (fun y => _)); [exact TI|exact Ht].
  Qed.
End Sat.
