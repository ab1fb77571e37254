(** Rounding errors of the accretion rate. *)

From Coq Require Import Reals ZArith Lra Lia List.
From Flocq Require Import Core Relative.
From Verif Require Import Model_Num Model_Kernels Model_Float Spec_Kernels Spec_Float RealAux
  Proofs_Float Proofs_Float2 Proofs_Float3 Proofs_Float4.
Local Open Scope R_scope.

(** ** Rounding of small numbers *)

Lemma rne_abs emin prec z : (2 <= prec)%Z ->
  Rabs (rne emin prec z - z) <= bpow radix2 (- prec) * Rabs z + bpow radix2 emin.
Proof.
  intros Hp. assert (Hprec : Prec_gt_0 prec) by (unfold Prec_gt_0; lia).
  pose proof (bpow_gt_0 radix2 (- prec)) as Hu. pose proof (bpow_gt_0 radix2 emin) as Hm.
  destruct (Rle_or_lt (bpow radix2 (emin + prec - 1)) (Rabs z)) as [H|H].
  - pose proof (rne_rel emin prec z Hp H). lra.
  - pose proof (error_le_half_ulp radix2 (FLT_exp emin prec) (fun x => negb (Z.even x)) z) as HE.
    assert (HU : ulp radix2 (FLT_exp emin prec) z = bpow radix2 emin).
    { apply ulp_FLT_small; [exact Hprec|]. eapply Rlt_le_trans; [exact H|]. apply bpow_le. lia. }
    unfold rne. rewrite HU in HE. pose proof (Rabs_pos z). nra.
Qed.

Section Rate.
  Variables emin prec : Z.
  Hypothesis Hprec : (24 <= prec)%Z.
  Hypothesis Hemin : (emin <= - prec - 100)%Z.
  Variable F : arith.
  Hypothesis HA : faithful emin prec F.

  Local Notation u := (bpow radix2 (- prec)).
  Local Notation rd := (rnd F).
  Local Notation near := (near prec).

  Lemma u24 : 0 < u <= / 16777216.
  Proof.
    split; [apply bpow_gt_0|]. apply Rle_trans with (bpow radix2 (-24)); [apply bpow_le; lia|].
    change (bpow radix2 (-24)) with (/ 16777216). lra.
  Qed.

  Lemma rd_small z : Rabs (rd z - z) <= u * (Rabs z + / 1000000).
  Proof.
    rewrite (fa_rnd _ _ _ HA). pose proof (rne_abs emin prec z ltac:(lia)) as H.
    assert (B : bpow radix2 emin <= u * / 1000000).
    { apply Rle_trans with (bpow radix2 (- prec + -20)); [apply bpow_le; lia|].
      rewrite bpow_plus. change (bpow radix2 (-20)) with (/ 1048576). pose proof u24. nra. }
    lra.
  Qed.

  Lemma rd_idem x : rd (rd x) = rd x.
  Proof. apply (oa_idem F (fa_ordered _ _ _ HA)). Qed.

  (** ** The rate as a chain of rounded operations *)

  Definition lt' (t : R) : R := rd (1 / rd (t * rd (ln 10))).
  Definition slope_fl (p : DiffmahParams R) (t lgt0 : R) : R :=
    let L := lib_log10 F t in
    let S := lib_logistic F (rd (rd (35 / 10) * rd (L - logtc p))) in
    let h := rd (late_index p - early_index p) in
    let IX := rd (early_index p + rd (h * S)) in
    rd (rd (rd (h * rd (rd (S * rd (1 - S)) * rd (rd (35 / 10) * lt' t))) * rd (L - lgt0))
        + rd (IX * lt' t)).

  Lemma rate_formula p t lgt0 :
    @dmhdt_noq_kern_scalar R (Num_fl F) p t lgt0 =
    rd (rd (rd (lib_pow10 F (@log_mah_noq_kern R (Num_fl F) p t lgt0) * rd (ln 10)) * slope_fl p t lgt0)
        / rd 1000000000).
  Proof.
    assert (R0 : rd 0 = 0) by exact (oa_zero F (fa_ordered _ _ _ HA)).
    assert (R1 : rd 1 = 1) by exact (oa_one F (fa_ordered _ _ _ HA)).
    unfold dmhdt_noq_kern_scalar, dmhdt_noq_grad_kern_scalar, grad, slope_fl, lt'.
    cbn [mah_noq_kern log_mah_noq_kern rolling_plaw_vs_t rolling_plaw_vs_logt
         power_law_index_vs_logt sigmoid dlift_params dlift logm0 logtc early_index
         late_index t_peak npow10 nlog10 nlogistic nadd nsub nmul ndiv nconst
         Num_Dual dpow10 dlog10 dlogistic dadd dsub dmul dconst dval dder MAH_K Num_fl].
    repeat (rewrite ?R0, ?R1, ?Rmult_0_l, ?Rmult_0_r, ?Rminus_0_r, ?Rplus_0_l, ?Rplus_0_r, ?rd_idem).
    reflexivity.
  Qed.

  (** ** Errors relative to a scale *)

  Definition nrs (sc x r e : R) : Prop := Rabs (x - sc * r) <= e * u * sc.

  Lemma nrs_le sc x r d e : 0 < sc -> nrs sc x r d -> d <= e -> nrs sc x r e.
  Proof.
    unfold nrs. intros Hs H Hd. pose proof u24 as Hu. assert (d * (u * sc) <= e * (u * sc)) by (apply Rmult_le_compat_r; nra). lra.
  Qed.

  Lemma nrs_rd sc x r e M : / 1000 <= sc -> nrs sc x r e -> Rabs r <= M -> 0 <= M -> e <= 100000 ->
    nrs sc (rd x) r (e + (M + / 50)).
  Proof.
    intros Hsc H HR HM He. unfold nrs in *. pose proof u24 as Hu.
    assert (H1 : e * u <= / 100) by nra.
    assert (Hx : Rabs x <= sc * (M + / 100)).
    { replace x with ((x - sc * r) + sc * r) by ring. pose proof (Rabs_triang (x - sc * r) (sc * r)) as HT.
      rewrite (Rabs_mult sc r), (Rabs_right sc) in HT by lra. nra. }
    pose proof (rd_small x) as HE.
    replace (rd x - sc * r) with ((rd x - x) + (x - sc * r)) by ring.
    pose proof (Rabs_triang (rd x - x) (x - sc * r)) as HT.
    assert (u * (Rabs x + / 1000000) <= u * (sc * (M + / 50))) by (apply Rmult_le_compat_l; nra).
    nra.
  Qed.

  Lemma nrs_mul sc x y r s d e M N : 0 < sc -> near x r d -> nrs sc y s e ->
    Rabs r <= M -> Rabs s <= N -> 0 <= d <= 100000 -> 0 <= e -> nrs sc (x * y) (r * s) (d * N + (M + / 10) * e).
  Proof.
    unfold nrs, Proofs_Float4.near. intros Hsc H1 H2 HM HN Hd He.
    pose proof u24 as Hu. assert (H3 : d * u <= / 10) by nra.
    assert (Hx : Rabs x <= M + / 10).
    { replace x with ((x - r) + r) by ring. pose proof (Rabs_triang (x - r) r). lra. }
    replace (x * y - sc * (r * s)) with (x * (y - sc * s) + (x - r) * (sc * s)) by ring.
    pose proof (Rabs_triang (x * (y - sc * s)) ((x - r) * (sc * s))) as HT. rewrite !Rabs_mult in HT.
    rewrite (Rabs_right sc) in HT by lra.
    assert (Rabs x * Rabs (y - sc * s) <= (M + / 10) * (e * u * sc)) by (apply Rmult_le_compat; auto using Rabs_pos).
    assert (Rabs (x - r) * (sc * Rabs s) <= d * u * (sc * N)).
    { apply Rmult_le_compat; auto using Rabs_pos.
      - apply Rmult_le_pos; [lra|apply Rabs_pos].
      - apply Rmult_le_compat_l; lra. }
    lra.
  Qed.

  Lemma nrs_add sc x y r s d e : nrs sc x r d -> nrs sc y s e -> nrs sc (x + y) (r + s) (d + e).
  Proof.
    unfold nrs. intros H1 H2. replace (x + y - sc * (r + s)) with ((x - sc * r) + (y - sc * s)) by ring.
    pose proof (Rabs_triang (x - sc * r) (y - sc * s)). lra.
  Qed.

  (** The derivative of log10. *)
  Lemma lt'_near t : 1 / 1000 <= t <= 20 -> nrs (/ (t * ln 10)) (lt' t) 1 6 /\ / 100 <= / (t * ln 10).
  Proof.
    intros Ht. pose proof ln10_size as HL. pose proof u24 as Hu.
    assert (HT : 2 / 1000 <= t * ln 10 <= 80) by nra.
    assert (HS : / 100 <= / (t * ln 10)) by (apply Rinv_le_contravar; lra).
    split; [|exact HS]. set (T := t * ln 10) in *.
    assert (E1 : Rabs (rd (ln 10) - ln 10) <= 101 / 100 * u * ln 10).
    { pose proof (rd_small (ln 10)) as H. rewrite (Rabs_right (ln 10)) in H by lra. nra. }
    assert (E2 : Rabs (t * rd (ln 10) - T) <= 101 / 100 * u * T).
    { unfold T. rewrite <- Rmult_minus_distr_l, Rabs_mult, (Rabs_right t) by lra.
      apply Rle_trans with (t * (101 / 100 * u * ln 10)); [apply Rmult_le_compat_l; lra|right; ring]. }
    assert (HUT : u * T <= T / 1000000) by nra.
    assert (B2 : Rabs (t * rd (ln 10)) <= 101 / 100 * T).
    { apply Rabs_le. apply Rabs_le_inv in E2. nra. }
    assert (E3 : Rabs (rd (t * rd (ln 10)) - T) <= 205 / 100 * u * T).
    { pose proof (rd_small (t * rd (ln 10))) as H.
      replace (rd (t * rd (ln 10)) - T) with ((rd (t * rd (ln 10)) - t * rd (ln 10)) + (t * rd (ln 10) - T)) by ring.
      pose proof (Rabs_triang (rd (t * rd (ln 10)) - t * rd (ln 10)) (t * rd (ln 10) - T)).
      assert (u * (Rabs (t * rd (ln 10)) + / 1000000) <= u * (102 / 100 * T)) by (apply Rmult_le_compat_l; lra).
      assert (0 < u * T) by (apply Rmult_lt_0_compat; lra). lra. }
    unfold lt'. set (T' := rd (t * rd (ln 10))) in *.
    assert (B3 : 99 / 100 * T <= T') by (apply Rabs_le_inv in E3; lra).
    assert (P : 0 < T) by lra. assert (P' : 0 < T') by lra.
    assert (E4 : nrs (/ T) (1 / T') 1 3).
    { unfold nrs. replace (1 / T' - / T * 1) with ((T - T') * / (T * T')) by (field; lra).
      assert (PI : 0 < / (T * T')) by (apply Rinv_0_lt_compat, Rmult_lt_0_compat; lra).
      rewrite Rabs_mult, (Rabs_right (/ (T * T'))) by lra. rewrite Rabs_minus_sym.
      apply Rle_trans with (205 / 100 * u * T * / (T * T')).
      { apply Rmult_le_compat_r; lra. }
      replace (205 / 100 * u * T * / (T * T')) with (205 / 100 * u * / T') by (field; lra).
      replace (3 * u * / T) with (205 / 100 * u * (3 * 100 / 205 * / T)) by (field; lra).
      apply Rmult_le_compat_l; [lra|].
      apply Rle_trans with (/ (99 / 100 * T)); [apply Rinv_le_contravar; lra|].
      replace (/ (99 / 100 * T)) with (100 / 99 * / T) by (field; lra). assert (0 < / T) by now apply Rinv_0_lt_compat. lra. }
    eapply nrs_le; [now apply Rinv_0_lt_compat|apply (nrs_rd _ _ _ 3 1); try exact E4; try lra|lra].
    rewrite Rabs_R1. lra.
  Qed.

  (** ** The logarithmic slope *)

  Definition slope_R (p : DiffmahParams R) (t lgt0 : R) : R :=
    let s := logistic (35 / 10 * (log10 t - logtc p)) in
    (late_index p - early_index p) * (s * (1 - s) * (35 / 10)) * (log10 t - lgt0)
      + (early_index p + (late_index p - early_index p) * s) * 1.

  Lemma slope_error p t lgt0 : closed_legal p -> 1 / 1000 <= t <= 20 -> -1 <= lgt0 <= 14 / 10 ->
    nrs (/ (t * ln 10)) (slope_fl p t lgt0) (slope_R p t lgt0) 9500.
  Proof.
    intros (Hm & Hc & Hl & He & _) HT0 H0. unfold within in *.
    pose proof (log10_range t HT0) as HT. assert (Ht : 0 < t) by lra.
    destruct (lt'_near t HT0) as [NT HS]. set (sc := / (t * ln 10)) in *. assert (Hsc : 0 < sc) by lra.
    assert (H35 : rd (35 / 10) = 35 / 10).
    { rewrite (fa_rnd _ _ _ HA). replace (35 / 10) with (IZR 7 * bpow radix2 (-1))
        by (change (bpow radix2 (-1)) with (/ 2); lra).
      apply rne_pow2; lia. }
    assert (P20 : (20 <= prec)%Z) by lia.
    pose proof (near_log10 emin prec F HA t 3 Ht ltac:(apply Rabs_le; lra) ltac:(lra)) as NL.
    unfold slope_fl, slope_R. cbv zeta. rewrite H35.
    set (L := lib_log10 F t) in *. set (l := log10 t) in *.
    pose proof (near_rd emin prec P20 Hemin F HA) as RD.
    pose proof (near_mul prec P20) as MU.
    pose proof (near_exact prec) as EX. pose proof (near_sub prec) as SU. pose proof (near_add prec) as AD.
    pose proof (near_le prec) as LE.
    assert (N1 : near (rd (L - logtc p)) (l - logtc p) 17).
    { eapply LE; [apply (RD _ _ _ 4 (SU _ _ _ _ _ _ NL (EX (logtc p))))|];
        [apply Rabs_le; lra | lra | lra | lra]. }
    assert (N2 : near (rd (35 / 10 * rd (L - logtc p))) (35 / 10 * (l - logtc p)) 76).
    { eapply LE; [apply (RD _ _ _ 14
        (MU _ _ _ _ _ _ (35/10) 4 (EX (35 / 10)) N1 ltac:(rewrite Rabs_pos_eq; lra)
           ltac:(apply Rabs_le; lra) ltac:(lra) ltac:(lra)))|];
        [apply Rabs_le; lra | lra | lra | lra]. }
    pose proof (near_logistic emin prec F HA _ _ _ N2) as N3.
    set (S := lib_logistic F (rd (35 / 10 * rd (L - logtc p)))) in *.
    pose proof (logistic_bounds (35 / 10 * (l - logtc p))) as Hs.
    set (s := logistic (35 / 10 * (l - logtc p))) in *.
    assert (N4 : near (rd (late_index p - early_index p)) (late_index p - early_index p) (102/10)).
    { eapply LE; [apply (RD _ _ _ 10
        (SU _ _ _ _ _ _ (EX (late_index p)) (EX (early_index p))))|];
        [apply Rabs_le; lra | lra | lra | lra]. }
    set (h := late_index p - early_index p) in *. set (H := rd h) in *.
    assert (Hh : Rabs h <= 10) by (apply Rabs_le; unfold h; lra).
    assert (N5 : near (rd (H * S)) (h * s) 255).
    { eapply LE; [apply (RD _ _ _ 10
        (MU _ _ _ _ _ _ 10 1 N4 N3 Hh ltac:(apply Rabs_le; lra) ltac:(lra) ltac:(lra)))|];
        [rewrite Rabs_mult, (Rabs_right s) by lra; pose proof (Rabs_pos h); nra | lra | lra | lra]. }
    assert (Hidx : 0 <= early_index p + h * s <= 10) by (unfold h; nra).
    assert (N6 : near (rd (early_index p + rd (H * S))) (early_index p + h * s) 266).
    { eapply LE; [apply (RD _ _ _ 10 (AD _ _ _ _ _ _ (EX (early_index p)) N5))|];
        [apply Rabs_le; lra | lra | lra | lra]. }
    assert (N7 : near (rd (L - lgt0)) (l - lgt0) 17).
    { eapply LE; [apply (RD _ _ _ (44/10) (SU _ _ _ _ _ _ NL (EX lgt0)))|];
        [apply Rabs_le; lra | lra | lra | lra]. }
    assert (N8 : near (rd (1 - S)) (1 - s) 25).
    { eapply LE; [apply (RD _ _ _ 1 (SU _ _ _ _ _ _ (EX 1) N3))|];
        [apply Rabs_le; lra | lra | lra | lra]. }
    assert (Hss : 0 <= s * (1 - s) <= / 4) by (pose proof (pow2_ge_0 (s - / 2)); nra).
    assert (N9 : near (rd (S * rd (1 - S))) (s * (1 - s)) 52).
    { eapply LE; [apply (RD _ _ _ 1
        (MU _ _ _ _ _ _ 1 1 N3 N8 ltac:(apply Rabs_le; lra) ltac:(apply Rabs_le; lra) ltac:(lra) ltac:(lra)))|];
        [apply Rabs_le; lra | lra | lra | lra]. }
    assert (K1 : nrs sc (rd (35 / 10 * lt' t)) (35 / 10) 26).
    { eapply nrs_le; [exact Hsc|apply (nrs_rd _ _ _ (36/10 * 6) (35/10))|].
      - lra.
      - replace (35 / 10) with (35 / 10 * 1) at 2 by ring.
        eapply nrs_le; [exact Hsc|apply (nrs_mul sc _ _ _ _ 0 6 (35/10) 1 Hsc (EX (35/10)) NT)|]; try lra.
        + rewrite Rabs_pos_eq; lra.
        + rewrite Rabs_R1. lra.
      - rewrite Rabs_pos_eq; lra.
      - lra.
      - lra.
      - lra. }
    assert (K2 : nrs sc (rd (rd (S * rd (1 - S)) * rd (35 / 10 * lt' t))) (s * (1 - s) * (35 / 10)) 193).
    { eapply nrs_le; [exact Hsc|apply (nrs_rd _ _ _ (52 * (35/10) + (/ 4 + / 10) * 26) 1)|].
      - lra.
      - apply nrs_mul; try assumption; try lra; rewrite Rabs_pos_eq; lra.
      - rewrite Rabs_pos_eq; lra.
      - lra.
      - lra.
      - lra. }
    assert (Hb : Rabs (s * (1 - s) * (35 / 10)) <= 9 / 10) by (rewrite Rabs_pos_eq; lra).
    assert (Hhb : Rabs (h * (s * (1 - s) * (35 / 10))) <= 9).
    { rewrite Rabs_mult. apply Rle_trans with (10 * (9 / 10)); [|lra].
      apply Rmult_le_compat; auto using Rabs_pos. }
    assert (K3 : nrs sc (rd (H * rd (rd (S * rd (1 - S)) * rd (35 / 10 * lt' t)))) (h * (s * (1 - s) * (35 / 10))) 1970).
    { eapply nrs_le; [exact Hsc|apply (nrs_rd _ _ _ (102/10 * (9/10) + (10 + / 10) * 193) 9)|].
      - lra.
      - apply nrs_mul; try assumption; lra.
      - exact Hhb.
      - lra.
      - lra.
      - lra. }
    assert (Hd : Rabs (l - lgt0) <= 44 / 10) by (apply Rabs_le; lra).
    assert (K4 : nrs sc (rd (rd (H * rd (rd (S * rd (1 - S)) * rd (35 / 10 * lt' t))) * rd (L - lgt0)))
                   (h * (s * (1 - s) * (35 / 10)) * (l - lgt0)) 9070).
    { eapply nrs_le; [exact Hsc|apply (nrs_rd _ _ _ (17 * 9 + (44/10 + / 10) * 1970) 40)|].
      - lra.
      - rewrite (Rmult_comm (rd _) (rd (L - lgt0))), (Rmult_comm (h * _) (l - lgt0)).
        apply nrs_mul; try assumption; lra.
      - rewrite Rabs_mult. apply Rle_trans with (9 * (44 / 10)); [|lra].
        apply Rmult_le_compat; auto using Rabs_pos.
      - lra.
      - lra.
      - lra. }
    assert (K5 : nrs sc (rd (rd (early_index p + rd (H * S)) * lt' t)) ((early_index p + h * s) * 1) 340).
    { eapply nrs_le; [exact Hsc|apply (nrs_rd _ _ _ (266 * 1 + (10 + / 10) * 6) 10)|].
      - lra.
      - apply nrs_mul; try assumption; try lra; [rewrite Rabs_pos_eq; lra|rewrite Rabs_R1; lra].
      - rewrite Rabs_pos_eq; lra.
      - lra.
      - lra.
      - lra. }
    eapply nrs_le; [exact Hsc|apply (nrs_rd sc _ _ _ 60 ltac:(lra) (nrs_add _ _ _ _ _ _ _ K4 K5))|]; try lra.
    replace 60 with (50 + 10) by lra. eapply Rle_trans; [apply Rabs_triang|]. apply Rplus_le_compat.
    - rewrite Rabs_mult. apply Rle_trans with (9 * (44 / 10)); [|lra]. apply Rmult_le_compat; auto using Rabs_pos.
    - rewrite Rabs_pos_eq; lra.
  Qed.

  Lemma slope_R_late p t lgt0 : closed_legal p -> log10 t <= lgt0 -> late_index p <= slope_R p t lgt0.
  Proof.
    intros (_ & _ & Hl & He & _) H. unfold within, slope_R in *. cbv zeta.
    pose proof (logistic_bounds (35 / 10 * (log10 t - logtc p))) as Hs.
    set (s := logistic _) in *. set (h := late_index p - early_index p).
    assert (Hh : h <= 0) by (unfold h; lra).
    assert (Q : 0 <= s * (1 - s) * (35 / 10)) by (apply Rmult_le_pos; [apply Rmult_le_pos; lra|lra]).
    assert (A : 0 <= h * (s * (1 - s) * (35 / 10)) * (log10 t - lgt0)).
    { replace (h * (s * (1 - s) * (35 / 10)) * (log10 t - lgt0))
        with ((- h) * (s * (1 - s) * (35 / 10)) * (lgt0 - log10 t)) by ring.
      apply Rmult_le_pos; [apply Rmult_le_pos; lra|lra]. }
    unfold h in *. nra.
  Qed.

  (** ** Relative errors *)

  Definition rel (x r e : R) : Prop := Rabs (x - r) <= e * u * r.

  Lemma rd_tiny z : Rabs (rd z - z) <= u * (Rabs z + bpow radix2 (-100)).
  Proof.
    rewrite (fa_rnd _ _ _ HA). pose proof (rne_abs emin prec z ltac:(lia)) as H.
    assert (B : bpow radix2 emin <= u * bpow radix2 (-100)) by (rewrite <- bpow_plus; apply bpow_le; lia).
    lra.
  Qed.

  Lemma tiny : 0 < bpow radix2 (-100) <= / 1000000000000000000000000.
  Proof.
    split; [apply bpow_gt_0|]. change (bpow radix2 (-100)) with (/ 1267650600228229401496703205376). lra.
  Qed.

  Lemma rel_le x r d e : 0 < r -> rel x r d -> d <= e -> rel x r e.
  Proof.
    unfold rel. intros Hr H Hd. pose proof u24 as Hu.
    assert (d * (u * r) <= e * (u * r)) by (apply Rmult_le_compat_r; nra). lra.
  Qed.

  Lemma rel_bounds x r e : 0 < r -> rel x r e -> e <= 150000 -> 99 / 100 * r <= x <= 101 / 100 * r.
  Proof.
    unfold rel. intros Hr H He. pose proof u24 as Hu.
    assert (E : e * u <= / 100) by nra.
    assert (e * u * r <= / 100 * r) by (apply Rmult_le_compat_r; lra).
    apply Rabs_le_inv in H. lra.
  Qed.

  Lemma rel_rd x r e : / 1000000000000000 <= r -> rel x r e -> e <= 150000 -> rel (rd x) r (e + 102 / 100).
  Proof.
    intros Hr H He. pose proof (rel_bounds x r e ltac:(lra) H He) as B. unfold rel in *. pose proof u24 as Hu.
    pose proof (rd_tiny x) as HE. rewrite (Rabs_right x) in HE by lra. pose proof tiny as HT.
    replace (rd x - r) with ((rd x - x) + (x - r)) by ring.
    pose proof (Rabs_triang (rd x - x) (x - r)).
    assert (u * (x + bpow radix2 (-100)) <= u * (102 / 100 * r)) by (apply Rmult_le_compat_l; lra).
    lra.
  Qed.

  Lemma rel_mul x y r s d e : 0 < r -> 0 < s -> rel x r d -> rel y s e -> 0 <= d -> 0 <= e ->
    rel (x * y) (r * s) (d + e + d * e / 10000000).
  Proof.
    unfold rel. intros Hr Hs H1 H2 Hd He. pose proof u24 as Hu.
    replace (x * y - r * s) with ((x - r) * (y - s) + ((x - r) * s + r * (y - s))) by ring.
    pose proof (Rabs_triang ((x - r) * (y - s)) ((x - r) * s + r * (y - s))) as T1.
    pose proof (Rabs_triang ((x - r) * s) (r * (y - s))) as T2. rewrite !Rabs_mult in *.
    rewrite (Rabs_right r), (Rabs_right s) in * by lra.
    assert (A1 : Rabs (x - r) * Rabs (y - s) <= (d * u * r) * (e * u * s)) by (apply Rmult_le_compat; auto using Rabs_pos).
    assert (A2 : Rabs (x - r) * s <= d * u * r * s) by (apply Rmult_le_compat_r; lra).
    assert (A3 : r * Rabs (y - s) <= r * (e * u * s)) by (apply Rmult_le_compat_l; lra).
    assert (A4 : (d * u * r) * (e * u * s) <= d * e / 10000000 * u * (r * s)).
    { replace ((d * u * r) * (e * u * s)) with (d * e * u * (r * s) * u) by ring.
      replace (d * e / 10000000 * u * (r * s)) with (d * e * u * (r * s) * / 10000000) by field.
      apply Rmult_le_compat_l; [|lra].
      apply Rmult_le_pos; [|apply Rmult_le_pos; lra]. apply Rmult_le_pos; [|lra]. now apply Rmult_le_pos. }
    lra.
  Qed.

  Lemma rel_div x y r s d e : 0 < r -> 0 < s -> rel x r d -> rel y s e -> 0 <= d <= 150000 -> 0 <= e <= 2 ->
    rel (x / y) (r / s) (d + e + 1).
  Proof.
    intros Hr Hs H1 H2 Hd He. pose proof (rel_bounds y s e Hs H2 ltac:(lra)) as B. unfold rel in *.
    pose proof u24 as Hu. apply Rabs_le_inv in H2.
    assert (E : e * u * s <= / 1000000 * s) by (apply Rmult_le_compat_r; nra).
    assert (By : (1 - / 1000000) * s <= y) by lra.
    assert (Py : 0 < y) by lra.
    replace (x / y - r / s) with (((x - r) * s + r * (s - y)) * / (y * s)) by (field; lra).
    assert (PI : 0 < / (y * s)) by (apply Rinv_0_lt_compat, Rmult_lt_0_compat; lra).
    rewrite Rabs_mult, (Rabs_right (/ (y * s))) by lra.
    assert (N : Rabs ((x - r) * s + r * (s - y)) <= (d + e) * u * r * s).
    { eapply Rle_trans; [apply Rabs_triang|]. rewrite !Rabs_mult, (Rabs_right r), (Rabs_right s) by lra.
      assert (A1 : Rabs (x - r) * s <= d * u * r * s) by (apply Rmult_le_compat_r; lra).
      assert (A2 : r * Rabs (s - y) <= r * (e * u * s)) by (apply Rmult_le_compat_l; [lra|]; apply Rabs_le; lra).
      lra. }
    apply Rle_trans with ((d + e) * u * r * s * / (y * s)); [apply Rmult_le_compat_r; lra|].
    replace ((d + e) * u * r * s * / (y * s)) with ((d + e) * u * r * / y) by (field; lra).
    assert (I : / y <= (1 + / 500000) * / s).
    { apply Rle_trans with (/ ((1 - / 1000000) * s)); [apply Rinv_le_contravar; nra|].
      replace (/ ((1 - / 1000000) * s)) with (1000000 / 999999 * / s) by (field; lra).
      apply Rmult_le_compat_r; [left; now apply Rinv_0_lt_compat|lra]. }
    assert (Pu : 0 <= u * r) by (apply Rmult_le_pos; lra).
    assert (PIs : 0 < / s) by now apply Rinv_0_lt_compat.
    apply Rle_trans with ((d + e) * u * r * ((1 + / 500000) * / s)).
    { apply Rmult_le_compat_l; [|exact I]. rewrite Rmult_assoc. apply Rmult_le_pos; lra. }
    unfold Rdiv. replace ((d + e) * u * r * ((1 + / 500000) * / s)) with ((d + e) * (1 + / 500000) * (u * (r * / s))) by ring.
    replace ((d + e + 1) * u * (r * / s)) with ((d + e + 1) * (u * (r * / s))) by ring.
    apply Rmult_le_compat_r; [apply Rmult_le_pos; [lra|apply Rmult_le_pos; lra]|lra].
  Qed.

  (** ** Powers of ten *)

  Lemma exp_near z : Rabs z <= / 1000 -> Rabs (exp z - 1) <= 1002 / 1000 * Rabs z.
  Proof.
    intros H. pose proof (exp_ineq1_le z) as L. pose proof (exp_ineq1_le (- z)) as L'.
    rewrite exp_Ropp in L'. pose proof (exp_pos z) as P.
    assert (B : -(/ 1000) <= z <= / 1000) by now apply Rabs_le_inv.
    assert (U : exp z * (1 - z) <= 1).
    { apply Rle_trans with (exp z * / exp z); [apply Rmult_le_compat_l; lra|right; field; lra]. }
    destruct (Rle_or_lt 0 z) as [Z|Z].
    - rewrite !Rabs_right by lra. nra.
    - rewrite (Rabs_left z) by lra. destruct (Rle_or_lt 1 (exp z)) as [O|O]; [rewrite Rabs_right by lra; nra|].
      rewrite Rabs_left by lra. lra.
  Qed.

  Hypothesis HP : forall x, -30 <= x <= 30 -> Rabs (lib_pow10 F x - pow10 x) <= 4 * u * pow10 x.

  Lemma pow10_error x r : near x r 2000 -> -29 <= r <= 29 -> rel (lib_pow10 F x) (pow10 r) 8030.
  Proof.
    unfold Proofs_Float4.near, rel. intros H Hr. pose proof u24 as Hu. pose proof ln10_size as HL.
    assert (B : Rabs (x - r) <= / 1000) by lra.
    pose proof (Rabs_le_inv _ _ B) as B'. pose proof (HP x ltac:(lra)) as HPx.
    pose proof (pow10_pos r) as Pr. pose proof (pow10_pos x) as Px.
    assert (Z : Rabs ((x - r) * ln 10) <= 8000 * u).
    { rewrite Rabs_mult, (Rabs_right (ln 10)) by lra. pose proof (Rabs_pos (x - r)). nra. }
    assert (E : Rabs (pow10 x - pow10 r) <= 8017 * u * pow10 r).
    { assert (X : pow10 x = pow10 r * exp ((x - r) * ln 10)).
      { unfold pow10. rewrite <- exp_plus. f_equal. ring. }
      rewrite X. replace (pow10 r * exp ((x - r) * ln 10) - pow10 r) with (pow10 r * (exp ((x - r) * ln 10) - 1)) by ring.
      rewrite Rabs_mult, (Rabs_right (pow10 r)) by lra.
      rewrite Rmult_comm. apply Rmult_le_compat_r; [lra|].
      eapply Rle_trans; [apply exp_near; lra|]. lra. }
    assert (U : 4 * u * pow10 x <= 5 * u * pow10 r).
    { apply Rabs_le_inv in E. assert (8017 * u * pow10 r <= / 1000 * pow10 r) by (apply Rmult_le_compat_r; lra).
      assert (pow10 x <= 5 / 4 * pow10 r) by lra.
      assert (u * pow10 x <= u * (5 / 4 * pow10 r)) by (apply Rmult_le_compat_l; lra). lra. }
    replace (lib_pow10 F x - pow10 r) with ((lib_pow10 F x - pow10 x) + (pow10 x - pow10 r)) by ring.
    pose proof (Rabs_triang (lib_pow10 F x - pow10 x) (pow10 x - pow10 r)).
    assert (0 <= u * pow10 r) by (apply Rmult_le_pos; lra). lra.
  Qed.

  (** ** The rate *)

  Lemma exact_rate p t lgt0 : 0 < t -> @dmhdt_noq_kern_scalar R Num_R p t lgt0 =
    pow10 (@log_mah_noq_kern R Num_R p t lgt0) * ln 10 * (/ (t * ln 10) * slope_R p t lgt0) / 1000000000.
  Proof.
    intros Ht. pose proof ln10_size as HL.
    unfold dmhdt_noq_kern_scalar, dmhdt_noq_grad_kern_scalar, grad, slope_R.
    cbn [mah_noq_kern log_mah_noq_kern rolling_plaw_vs_t rolling_plaw_vs_logt
         power_law_index_vs_logt sigmoid dlift_params dlift logm0 logtc early_index
         late_index t_peak npow10 nlog10 nlogistic nadd nsub nmul ndiv nconst
         Num_Dual dpow10 dlog10 dlogistic dadd dsub dmul dconst dval dder MAH_K Num_R].
    field. lra.
  Qed.

  Lemma rate_noq_error p t lgt0 : closed_legal p -> / 10 <= late_index p -> 1 / 1000 <= t <= 20 ->
    -1 <= lgt0 <= 14 / 10 -> log10 t <= lgt0 -> 0 <= @log_mah_noq_kern R Num_R p t lgt0 ->
    rel (@dmhdt_noq_kern_scalar R (Num_fl F) p t lgt0) (@dmhdt_noq_kern_scalar R Num_R p t lgt0) 104000.
  Proof.
    intros Hp Hl Ht H0 HT Hm. pose proof ln10_size as HL. pose proof u24 as Hu.
    pose proof (slope_R_late p t lgt0 Hp HT) as HS.
    pose proof (slope_error p t lgt0 Hp Ht H0) as ES. destruct (lt'_near t Ht) as [_ Hsc].
    rewrite exact_rate by lra. rewrite rate_formula.
    set (sc := / (t * ln 10)) in *. set (x := slope_R p t lgt0) in *. set (D := slope_fl p t lgt0) in *.
    assert (P20 : (20 <= prec)%Z) by lia.
    pose proof (noq_error emin prec P20 Hemin F HA p t lgt0 Hp (log10_range t Ht) ltac:(lra) H0) as EM.
    set (M := @log_mah_noq_kern R (Num_fl F) p t lgt0) in *. set (m := @log_mah_noq_kern R Num_R p t lgt0) in *.
    assert (Um : m <= 29).
    { destruct Hp as (Hm0 & Hc & Hla & He & _). unfold within in *. unfold m.
      change (@log_mah_noq_kern R Num_R p t lgt0) with
        ((early_index p + (late_index p - early_index p) * logistic (35 / 10 * (log10 t - logtc p))) * (log10 t - lgt0) + logm0 p).
      pose proof (logistic_bounds (35 / 10 * (log10 t - logtc p))) as Hs. set (s := logistic _) in *.
      assert (0 <= early_index p + (late_index p - early_index p) * s) by nra. nra. }
    pose proof (pow10_error M m EM ltac:(lra)) as R1.
    assert (Pm : 1 <= pow10 m).
    { rewrite <- pow10_0. now apply pow10_le. }
    assert (R2 : rel (rd (ln 10)) (ln 10) (102 / 100)).
    { eapply rel_le; [lra|apply (rel_rd (ln 10) (ln 10) 0)|]; try lra.
      unfold rel. rewrite Rminus_diag_eq by reflexivity. rewrite Rabs_R0. lra. }
    assert (Q1 : 2 <= pow10 m * ln 10) by nra.
    assert (R3 : rel (rd (lib_pow10 F M * rd (ln 10))) (pow10 m * ln 10) 8034).
    { eapply rel_le; [lra|apply rel_rd; [|exact (rel_mul _ _ (pow10 m) (ln 10) 8030 (102/100) ltac:(lra) ltac:(lra) R1 R2 ltac:(lra) ltac:(lra))|]|]; lra. }
    assert (Q2 : / 1000 <= sc * x) by nra.
    assert (R4 : rel D (sc * x) 95000).
    { unfold nrs in ES. unfold rel. eapply Rle_trans; [exact ES|].
      replace (9500 * u * sc) with (95000 * u * (sc * / 10)) by field.
      apply Rmult_le_compat_l; [lra|]. apply Rmult_le_compat_l; lra. }
    assert (Q3 : 2 / 1000 <= pow10 m * ln 10 * (sc * x)) by nra.
    assert (R5 : rel (rd (rd (lib_pow10 F M * rd (ln 10)) * D)) (pow10 m * ln 10 * (sc * x)) 103200).
    { eapply rel_le; [lra|apply rel_rd; [|exact (rel_mul _ _ (pow10 m * ln 10) (sc * x) 8034 95000 ltac:(lra) ltac:(lra) R3 R4 ltac:(lra) ltac:(lra))|]|]; lra. }
    assert (R6 : rel (rd 1000000000) 1000000000 (102 / 100)).
    { eapply rel_le; [lra|apply (rel_rd 1000000000 1000000000 0)|]; try lra.
      unfold rel. rewrite Rminus_diag_eq by reflexivity. rewrite Rabs_R0. lra. }
    assert (Q4 : / 1000000000000000 <= pow10 m * ln 10 * (sc * x) / 1000000000) by lra.
    eapply rel_le; [lra|apply rel_rd; [exact Q4|exact (rel_div _ _ (pow10 m * ln 10 * (sc * x)) 1000000000 103200 (102/100) ltac:(lra) ltac:(lra) R5 R6 ltac:(lra) ltac:(lra))|]|]; lra.
  Qed.

  Lemma rate_error p t lgt0 : closed_legal p -> / 10 <= late_index p -> 1 / 1000 <= t <= 20 ->
    -1 <= lgt0 <= 14 / 10 -> log10 t <= lgt0 -> 0 <= logmh_at_t_obs p t lgt0 ->
    Rabs (@dmhdt_kern_scalar R (Num_fl F) p t lgt0 - @dmhdt_kern_scalar R Num_R p t lgt0)
      <= 104000 * u * @dmhdt_kern_scalar R Num_R p t lgt0.
  Proof.
    intros Hp Hl Ht H0 HT Hm. unfold dmhdt_kern_scalar, jwhere. cbn [nltb Num_fl Num_R nconst].
    destruct (Rltb_spec (t_peak p) t) as [[-> _]|[-> HB]].
    - rewrite (oa_zero F (fa_ordered _ _ _ HA)), Rminus_0_r, Rabs_R0. lra.
    - apply rate_noq_error; auto. revert Hm. unfold logmh_at_t_obs, log_mah_kern, jwhere. cbn [nltb Num_R].
      destruct (Rltb_spec t (t_peak p)) as [[-> HB']|[-> HB']]; [auto|].
      now replace t with (t_peak p) by lra.
  Qed.
End Rate.

(** Correctly rounded powers of ten. *)
Lemma ieee_pow10 emin prec x : (24 <= prec)%Z -> (emin <= - prec - 100)%Z -> -30 <= x <= 30 ->
  Rabs (lib_pow10 (ieee emin prec) x - pow10 x) <= 4 * bpow radix2 (- prec) * pow10 x.
Proof.
  intros Hp He Hx. cbn [lib_pow10 ieee]. pose proof (pow10_pos x) as P. pose proof (bpow_gt_0 radix2 (- prec)) as Hu.
  assert (B : bpow radix2 (emin + prec - 1) <= pow10 x).
  { apply Rle_trans with (bpow radix2 (-100)); [apply bpow_le; lia|].
    apply Rle_trans with (pow10 (-30)); [|apply pow10_le; lra].
    assert (T : pow10 (-30) * pow10 30 = 1) by (rewrite <- pow10_plus; transitivity (pow10 0); [f_equal; lra|exact pow10_0]).
    assert (T3 : pow10 3 = 1000).
    { replace 3 with (1 + 1 + 1) by ring. rewrite !pow10_plus, pow10_1. lra. }
    assert (T30 : pow10 30 = 1000000000000000000000000000000).
    { replace 30 with (3+3+3+3+3+3+3+3+3+3) by ring. rewrite !pow10_plus, T3. lra. }
    rewrite T30 in T. change (bpow radix2 (-100)) with (/ 1267650600228229401496703205376). lra. }
  pose proof (rne_rel emin prec (pow10 x) ltac:(lia)) as H. rewrite (Rabs_right (pow10 x)) in H by lra.
  specialize (H B). nra.
Qed.
