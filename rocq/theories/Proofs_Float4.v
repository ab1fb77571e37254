(** Rounding errors of the mass history. *)

From Coq Require Import Reals ZArith Lra Lia List.
From Flocq Require Import Core Relative.
From Verif Require Import Model_Num Model_Kernels Model_Float Spec_Kernels Spec_Float RealAux
  Proofs_Float Proofs_Float2 Proofs_Float3.
Local Open Scope R_scope.

(** The exact sigmoid has slope at most one (in fact a quarter). *)
Lemma logistic_lip : forall x y, Rabs (logistic x - logistic y) <= / 4 * Rabs (x - y).
Proof.
  assert (HW : forall x y, x <= y -> logistic y - logistic x <= / 4 * (y - x)).
  { intros x y H.
    destruct H as [H | ->]; [|lra].
    destruct (MVT_cor2 logistic (fun z => exp (- z) / (1 + exp (- z)) ^ 2) x y H) as (c & Hc & _).
    { intros c _. unfold logistic. pose proof (exp_pos (- c)) as He.
      assert (D : derivable_pt_lim (fun z => 1 + exp (- z)) c (0 + exp (- c) * - (1))).
      { apply derivable_pt_lim_plus; [apply derivable_pt_lim_const|].
        apply (derivable_pt_lim_comp (fun z => - z) exp c (- (1)) (exp (- c))).
        - apply (derivable_pt_lim_opp (fun z => z)). apply derivable_pt_lim_id.
        - apply derivable_pt_lim_exp. }
      pose proof (derivable_pt_lim_div (fun _ => 1) (fun z => 1 + exp (- z)) c 0
        (0 + exp (- c) * - (1)) (derivable_pt_lim_const 1 c) D ltac:(cbv beta; lra)) as H1.
      unfold div_fct in H1.
      apply (derivable_pt_lim_ext (fun y => 1 / (1 + exp (- y)))).
      - intros z. unfold Rdiv. ring.
      - replace (exp (- c) / (1 + exp (- c)) ^ 2) with
          ((0 * (1 + exp (- c)) - (0 + exp (- c) * - (1)) * 1) / Rsqr (1 + exp (- c))); [exact H1|].
        unfold Rsqr. field. lra. }
    rewrite Hc. pose proof (exp_pos (- c)) as He. set (e := exp (- c)) in *.
    assert (e / (1 + e) ^ 2 <= / 4).
    { apply Rmult_le_reg_r with ((1 + e) ^ 2); [nra|].
      unfold Rdiv. rewrite Rmult_assoc, Rinv_l by (apply pow_nonzero; lra). pose proof (pow2_ge_0 (1 - e)). nra. }
    nra. }
  intros x y. destruct (Rle_or_lt x y) as [H | H].
  - rewrite !Rabs_left1; [pose proof (HW x y H); lra | lra |].
    pose proof (logistic_le x y H). lra.
  - rewrite !Rabs_pos_eq; [apply (HW y x); lra | lra |].
    pose proof (logistic_le y x ltac:(lra)). lra.
Qed.

Lemma rne_rel : forall emin prec y, (2 <= prec)%Z ->
  bpow radix2 (emin + prec - 1) <= Rabs y ->
  Rabs (rne emin prec y - y) <= bpow radix2 (- prec) * Rabs y.
Proof.
  intros emin prec y Hp Hb.
  pose proof (relative_error_N_FLT radix2 emin prec ltac:(lia) (fun x => negb (Z.even x)) y Hb) as H.
  unfold rne. replace (/ 2 * bpow radix2 (- prec + 1)) with (bpow radix2 (- prec)) in H; [exact H|].
  rewrite bpow_plus. change (bpow radix2 1) with 2. field.
Qed.

Lemma rne_err : forall emin prec z M, (2 <= prec)%Z -> (emin <= - prec)%Z ->
  Rabs z <= M -> 1 <= M -> Rabs (rne emin prec z - z) <= bpow radix2 (- prec) * M.
Proof.
  intros emin prec z M Hp He Hz HM.
  assert (Hprec : Prec_gt_0 prec) by (unfold Prec_gt_0; lia).
  pose proof (bpow_gt_0 radix2 (- prec)) as Hu.
  destruct (Rle_or_lt 1 (Rabs z)) as [H1 | H1].
  - apply Rle_trans with (bpow radix2 (- prec) * Rabs z).
    + apply rne_rel; [exact Hp|].
      apply Rle_trans with (bpow radix2 0); [apply bpow_le; lia | exact H1].
    + apply Rmult_le_compat_l; lra.
  - pose proof (error_le_half_ulp radix2 (FLT_exp emin prec) (fun x => negb (Z.even x)) z) as H.
    apply Rle_trans with (1 := H).
    assert (HU : ulp radix2 (FLT_exp emin prec) z <= ulp radix2 (FLT_exp emin prec) 1).
    { apply ulp_le; [auto with typeclass_instances | auto with typeclass_instances |].
      rewrite Rabs_R1. lra. }
    assert (H1u : ulp radix2 (FLT_exp emin prec) 1 = 2 * bpow radix2 (- prec)).
    { change 1 with (bpow radix2 0). rewrite ulp_bpow. unfold FLT_exp.
      rewrite Z.max_l by lia. replace (0 + 1 - prec)%Z with (- prec + 1)%Z by lia.
      rewrite bpow_plus. change (bpow radix2 1) with 2. ring. }
    nra.
Qed.

Section Error.
  Variables emin prec : Z.
  Hypothesis Hprec : (20 <= prec)%Z.
  Hypothesis Hemin : (emin <= - prec - 100)%Z.
  Variable F : arith.
  Hypothesis HA : faithful emin prec F.

  Local Instance prec_gt_0_err : Prec_gt_0 prec.
  Proof. unfold Prec_gt_0. lia. Qed.

  Local Notation u := (bpow radix2 (- prec)).
  Local Notation rd := (rnd F).

  Lemma u_pos : 0 < u. Proof. apply bpow_gt_0. Qed.

  Lemma u_small : u <= / 1000000.
  Proof.
    apply Rle_trans with (bpow radix2 (-20)); [apply bpow_le; lia|].
    change (bpow radix2 (-20)) with (/ 1048576). lra.
  Qed.

  (** Rounding a number of size at most [M >= 1]. *)
  Lemma rd_err : forall z M, Rabs z <= M -> 1 <= M -> Rabs (rd z - z) <= u * M.
  Proof.
    intros z M Hz HM. rewrite (fa_rnd _ _ _ HA). apply rne_err; auto; lia.
  Qed.

  Definition near (x r e : R) : Prop := Rabs (x - r) <= e * u.

  Lemma near_rd : forall x r e M, near x r e -> Rabs r <= M -> 1 <= M -> e <= 100000 ->
    near (rd x) r (e + M + / 5).
  Proof.
    intros x r e M H HR HM He. unfold near in *. pose proof u_pos as Hu. pose proof u_small as Hs.
    assert (H0 : 0 <= e * u) by (pose proof (Rabs_pos (x - r)); lra).
    assert (H1 : e * u <= / 10) by nra.
    assert (Hx : Rabs x <= M + / 10).
    { replace x with ((x - r) + r) by ring. pose proof (Rabs_triang (x - r) r). lra. }
    pose proof (rd_err x (M + / 10) Hx ltac:(lra)) as HE.
    replace (rd x - r) with ((rd x - x) + (x - r)) by ring.
    pose proof (Rabs_triang (rd x - x) (x - r)). nra.
  Qed.

  Lemma near_exact : forall x, near x x 0.
  Proof. intros x. unfold near. rewrite Rminus_diag_eq by reflexivity. rewrite Rabs_R0. lra. Qed.

  Lemma near_add : forall x y r s d e, near x r d -> near y s e -> near (x + y) (r + s) (d + e).
  Proof.
    unfold near. intros x y r s d e H1 H2.
    replace (x + y - (r + s)) with ((x - r) + (y - s)) by ring.
    pose proof (Rabs_triang (x - r) (y - s)). lra.
  Qed.

  Lemma near_sub : forall x y r s d e, near x r d -> near y s e -> near (x - y) (r - s) (d + e).
  Proof.
    unfold near. intros x y r s d e H1 H2.
    replace (x - y - (r - s)) with ((x - r) + - (y - s)) by ring.
    pose proof (Rabs_triang (x - r) (- (y - s))) as H. rewrite Rabs_Ropp in H. lra.
  Qed.

  Lemma near_mul : forall x y r s d e M N, near x r d -> near y s e ->
    Rabs r <= M -> Rabs s <= N -> 0 <= d <= 100000 -> 0 <= e -> near (x * y) (r * s) (d * N + (M + / 10) * e).
  Proof.
    unfold near. intros x y r s d e M N H1 H2 HM HN Hd He.
    pose proof u_pos as Hu. pose proof u_small as Hs.
    assert (H3 : d * u <= / 10) by nra.
    assert (Hx : Rabs x <= M + / 10).
    { replace x with ((x - r) + r) by ring. pose proof (Rabs_triang (x - r) r). lra. }
    replace (x * y - r * s) with (x * (y - s) + (x - r) * s) by ring.
    pose proof (Rabs_triang (x * (y - s)) ((x - r) * s)) as HT. rewrite !Rabs_mult in HT.
    assert (Rabs x * Rabs (y - s) <= (M + / 10) * (e * u)).
    { apply Rmult_le_compat; auto using Rabs_pos. }
    assert (Rabs (x - r) * Rabs s <= d * u * N).
    { apply Rmult_le_compat; auto using Rabs_pos. }
    lra.
  Qed.

  Lemma near_le : forall x r d e, near x r d -> d <= e -> near x r e.
  Proof. unfold near. intros x r d e H Hd. pose proof u_pos. nra. Qed.

  Lemma near_logistic : forall x r e, near x r e ->
    near (lib_logistic F x) (logistic r) (e / 4 + 4).
  Proof.
    unfold near. intros x r e H. pose proof (fa_logistic _ _ _ HA x) as H1.
    pose proof (logistic_lip x r) as H2.
    replace (lib_logistic F x - logistic r)
      with ((lib_logistic F x - logistic x) + (logistic x - logistic r)) by ring.
    pose proof (Rabs_triang (lib_logistic F x - logistic x) (logistic x - logistic r)). lra.
  Qed.

  Lemma near_log10 : forall t M, 0 < t -> Rabs (log10 t) <= M -> 1 <= M ->
    near (lib_log10 F t) (log10 t) (4 * M).
  Proof.
    unfold near. intros t M Ht HM H1. pose proof (fa_log10 _ _ _ HA t Ht) as H.
    assert (Rmax 1 (Rabs (log10 t)) <= M) by (apply Rmax_lub; lra).
    pose proof u_pos. nra.
  Qed.

  (** The exponent before freezing, for times between 0.001 and 20. *)
  Lemma noq_error : forall p t lgt0, closed_legal p ->
    -3 <= log10 t <= 14 / 10 -> 0 < t -> -1 <= lgt0 <= 14 / 10 ->
    near (@log_mah_noq_kern R (Num_fl F) p t lgt0) (@log_mah_noq_kern R Num_R p t lgt0) 2000.
  Proof.
    intros p t lgt0 (Hm & Hc & Hl & He & _) HT Ht H0. unfold within in *.
    assert (H35 : rd (35 / 10) = 35 / 10).
    { rewrite (fa_rnd _ _ _ HA). replace (35 / 10) with (IZR 7 * bpow radix2 (-1))
        by (change (bpow radix2 (-1)) with (/ 2); lra).
      apply rne_pow2; lia. }
    pose proof (near_log10 t 3 Ht ltac:(apply Rabs_le; lra) ltac:(lra)) as NL.
    change (@log_mah_noq_kern R (Num_fl F) p t lgt0) with
      (rd (rd (rd (early_index p + rd (rd (late_index p - early_index p) *
          lib_logistic F (rd (rd (35 / 10) * rd (lib_log10 F t - logtc p))))) *
          rd (lib_log10 F t - lgt0)) + logm0 p)).
    change (@log_mah_noq_kern R Num_R p t lgt0) with
      ((early_index p + (late_index p - early_index p) *
          logistic (35 / 10 * (log10 t - logtc p))) * (log10 t - lgt0) + logm0 p).
    rewrite H35.
    set (L := lib_log10 F t) in *. set (l := log10 t) in *.
    assert (N1 : near (rd (L - logtc p)) (l - logtc p) 17).
    { eapply near_le; [apply (near_rd _ _ _ 4 (near_sub _ _ _ _ _ _ NL (near_exact (logtc p))))|];
        [apply Rabs_le; lra | lra | lra | lra]. }
    assert (N2 : near (rd (35 / 10 * rd (L - logtc p))) (35 / 10 * (l - logtc p)) 76).
    { eapply near_le; [apply (near_rd _ _ _ 14
        (near_mul _ _ _ _ _ _ (35/10) 4 (near_exact (35 / 10)) N1 ltac:(rewrite Rabs_pos_eq; lra)
           ltac:(apply Rabs_le; lra) ltac:(lra) ltac:(lra)))|];
        [apply Rabs_le; lra | lra | lra | lra]. }
    pose proof (near_logistic _ _ _ N2) as N3.
    set (S := lib_logistic F (rd (35 / 10 * rd (L - logtc p)))) in *.
    pose proof (logistic_bounds (35 / 10 * (l - logtc p))) as Hs.
    set (s := logistic (35 / 10 * (l - logtc p))) in *.
    assert (N4 : near (rd (late_index p - early_index p)) (late_index p - early_index p) (102/10)).
    { eapply near_le; [apply (near_rd _ _ _ 10
        (near_sub _ _ _ _ _ _ (near_exact (late_index p)) (near_exact (early_index p))))|];
        [apply Rabs_le; lra | lra | lra | lra]. }
    assert (N5 : near (rd (rd (late_index p - early_index p) * S)) ((late_index p - early_index p) * s) 255).
    { eapply near_le; [apply (near_rd _ _ _ 10
        (near_mul _ _ _ _ _ _ 10 1 N4 N3 ltac:(apply Rabs_le; lra)
           ltac:(apply Rabs_le; lra) ltac:(lra) ltac:(lra)))|];
        [apply Rabs_le; nra | lra | lra | lra]. }
    assert (Hidx : 0 <= early_index p + (late_index p - early_index p) * s <= 10) by nra.
    assert (N6 : near (rd (early_index p + rd (rd (late_index p - early_index p) * S)))
                      (early_index p + (late_index p - early_index p) * s) 266).
    { eapply near_le; [apply (near_rd _ _ _ 10
        (near_add _ _ _ _ _ _ (near_exact (early_index p)) N5))|];
        [apply Rabs_le; lra | lra | lra | lra]. }
    set (ix := early_index p + (late_index p - early_index p) * s) in *.
    assert (N7 : near (rd (L - lgt0)) (l - lgt0) 17).
    { eapply near_le; [apply (near_rd _ _ _ (44/10) (near_sub _ _ _ _ _ _ NL (near_exact lgt0)))|];
        [apply Rabs_le; lra | lra | lra | lra]. }
    assert (N8 : near (rd (rd (early_index p + rd (rd (late_index p - early_index p) * S)) * rd (L - lgt0)))
                      (ix * (l - lgt0)) 1400).
    { eapply near_le; [apply (near_rd _ _ _ 44
        (near_mul _ _ _ _ _ _ 10 (44/10) N6 N7 ltac:(apply Rabs_le; lra)
           ltac:(apply Rabs_le; lra) ltac:(lra) ltac:(lra)))|];
        [apply Rabs_le; nra | lra | lra | lra]. }
    eapply near_le; [apply (near_rd _ _ _ 61 (near_add _ _ _ _ _ _ N8 (near_exact (logm0 p))))|];
      [apply Rabs_le; nra | lra | lra | lra].
  Qed.

  Lemma pow10_lower : pow10 (-3) = 1 / 1000.
  Proof.
    assert (H : pow10 (-3) * (pow10 1 * pow10 1 * pow10 1) = 1).
    { rewrite <- !pow10_plus. transitivity (pow10 0); [f_equal; lra | exact pow10_0]. }
    rewrite pow10_1 in H. lra.
  Qed.

  Lemma pow10_upper : 20 <= pow10 (14 / 10).
  Proof.
    set (y := pow10 (14 / 10)).
    assert (H : y * y * y * y * y = 10000000).
    { unfold y. rewrite <- !pow10_plus.
      replace (14 / 10 + 14 / 10 + 14 / 10 + 14 / 10 + 14 / 10) with (1+1+1+1+1+1+1) by lra.
      rewrite !pow10_plus, pow10_1. lra. }
    destruct (Rle_or_lt 20 y) as [|Hy]; [assumption|].
    pose proof (pow10_pos (14 / 10)) as Hp. fold y in Hp.
    assert (H2 : 0 <= y * y <= 400) by nra.
    set (z := y * y) in *.
    assert (H4 : 0 <= z * z <= 160000) by nra.
    replace (z * y * y * y) with (z * z * y) in H by (unfold z; ring). nra.
  Qed.

  Lemma log10_range : forall t, 1 / 1000 <= t <= 20 -> -3 <= log10 t <= 14 / 10.
  Proof.
    intros t Ht. split.
    - apply log10_ge_pow10. rewrite pow10_lower. lra.
    - apply log10_le_pow10; [lra|]. pose proof pow10_upper. lra.
  Qed.

  Lemma log_mah_error : forall p t lgt0, closed_legal p ->
    1 / 1000 <= t <= 20 -> -1 <= lgt0 <= 14 / 10 ->
    Rabs (fl_log_mah F p t lgt0 - logmh_at_t_obs p t lgt0) <= 2000 * u.
  Proof.
    intros p t lgt0 HL Ht H0.
    assert (HP : 1 / 1000 <= t_peak p <= 20) by (apply HL).
    pose proof (noq_error p t lgt0 HL (log10_range t Ht) ltac:(lra) H0) as H1.
    pose proof (noq_error p (t_peak p) lgt0 HL (log10_range _ HP) ltac:(lra) H0) as H2.
    unfold near in *. unfold fl_log_mah, logmh_at_t_obs, log_mah_kern, jwhere.
    cbn [nltb Num_fl Num_R]. destruct (Rltb t (t_peak p)); assumption.
  Qed.
End Error.
