(** The results for round-to-nearest formats, and single precision in particular. *)

From Coq Require Import Reals ZArith Lra Lia List.
From Flocq Require Import Core.
From Verif Require Import Model_Num Model_Kernels Model_Float Spec_Kernels Spec_Float RealAux
  Proofs_Float Proofs_Float2 Proofs_Float3 Proofs_Float4.
Local Open Scope R_scope.

Lemma pow10_30 : bpow radix2 (-100) <= pow10 (-30).
Proof.
  set (y := pow10 (-3)).
  assert (Hy : y = 1 / 1000) by exact pow10_lower.
  assert (H : pow10 (-30) = y ^ 10).
  { unfold y. cbn [pow]. rewrite Rmult_1_r, <- !pow10_plus. f_equal. lra. }
  rewrite H, Hy. change (bpow radix2 (-100)) with (/ 1267650600228229401496703205376). lra.
Qed.

Lemma ieee_faithful : forall emin prec, (20 <= prec)%Z -> (emin <= - prec - 100)%Z ->
  faithful emin prec (ieee emin prec).
Proof.
  intros emin prec Hp He. pose proof (bpow_gt_0 radix2 (- prec)) as Hu.
  split; cbn [ieee rnd lib_logistic lib_log10 lib_pow10].
  - apply ieee_ordered; lia.
  - reflexivity.
  - intros x. pose proof (logistic_bounds x) as Hb.
    pose proof (rne_err emin prec (logistic x) 1 ltac:(lia) ltac:(lia)
      ltac:(apply Rabs_le; lra) ltac:(lra)). lra.
  - intros x Hx.
    pose proof (rne_err emin prec (log10 x) (Rmax 1 (Rabs (log10 x))) ltac:(lia) ltac:(lia)
      (Rmax_r _ _) (Rmax_l _ _)) as H.
    pose proof (Rmax_l 1 (Rabs (log10 x))). nra.
  - intros x Hx. pose proof (pow10_pos x) as Hpos.
    pose proof pow10_30 as H30. pose proof (pow10_le (-30) x ltac:(lra)) as Hle.
    pose proof (rne_rel emin prec (pow10 x) ltac:(lia)) as H.
    assert (Hb : bpow radix2 (emin + prec - 1) <= Rabs (pow10 x)).
    { rewrite Rabs_pos_eq by lra.
      apply Rle_trans with (bpow radix2 (-100)); [apply bpow_le; lia | lra]. }
    specialize (H Hb). rewrite (Rabs_pos_eq (pow10 x)) in H by lra.
    pose proof (u_small prec Hp). nra.
Qed.

Section Faithful.
  Variables emin prec : Z.
  Hypothesis Hprec : (20 <= prec)%Z.
  Hypothesis Hemin : (emin <= - prec - 100)%Z.
  Variable F : arith.
  Hypothesis HA : faithful emin prec F.
  Variable big : R.
  Hypothesis HB : bpow radix2 120 <= big.

  Local Notation X := (Num_xfl F big).
  Local Notation pw := (bpow radix2).

  Lemma faithful_pow2 : forall k, (-100 <= k <= 120)%Z -> machine F (bpow radix2 k).
  Proof.
    intros k Hk. unfold machine. rewrite (fa_rnd _ _ _ HA).
    rewrite <- (Rmult_1_l (bpow radix2 k)). apply (rne_pow2 emin prec ltac:(lia) 1); lia.
  Qed.

  Lemma faithful_int : forall m, (Z.abs m < 64)%Z -> rnd F (IZR m) = IZR m.
  Proof.
    exact (rnd_int emin prec ltac:(lia) ltac:(lia) F (fa_rnd _ _ _ HA)).
  Qed.

  Lemma faithful_bounded : forall v : DiffmahUParams xr,
    u_logm0 v <> NaN -> u_logtc v <> NaN -> u_early_index v <> NaN -> u_late_index v <> NaN ->
    u_t_peak v <> NaN ->
    exists p, @get_bounded_mah_params xr X v = inject p /\
    within 0 (logm0 p) 17 /\ within (-1) (logtc p) 1 /\
    within (rnd F (1 / 10)) (late_index p) 5 /\
    within (late_index p) (early_index p) 10 /\
    within (rnd F (5 / 100)) (t_peak p) 20 /\ machine_params F p.
  Proof.
    intros v H1 H2 H3 H4 H5. pose proof (fa_ordered _ _ _ HA) as HF.
    destruct (xbounded_ramps F HF big faithful_pow2 HB v H1 H2 H3 H4 H5 faithful_int)
      as (s1 & s2 & s3 & s4 & s5 & B1 & B2 & B3 & B4 & B5 & E).
    pose proof (ramps_legal emin prec ltac:(lia) ltac:(lia) F HF (fa_rnd _ _ _ HA)
      s1 s2 s3 s4 s5 B1 B2 B3 B4 B5) as HL. cbv zeta in E, HL.
    eexists. split; [|exact HL]. apply E.
    destruct HL as (_ & _ & HL & _). cbn [late_index] in HL. unfold within in HL.
    pose proof (tenth_range F HF) as HT.
    change (pw 5) with 32. rewrite Rabs_pos_eq; lra.
  Qed.

  Lemma closed_sized : forall p lgt0, closed_legal p -> -1 <= lgt0 <= 14 / 10 -> sized p lgt0.
  Proof.
    intros p lgt0 (Hm & Hc & Hl & He & _) H0. unfold within in *. unfold sized.
    change (pw 5) with 32. change (pw 10) with 1024.
    split; [apply Rabs_le; lra|]. split; [apply Rabs_le; lra|]. split; [apply Rabs_le; lra|].
    split; apply Rabs_le; lra.
  Qed.

  Lemma lib_log10_size : forall t, 1 / 1000 <= t <= 20 -> Rabs (lib_log10 F t) <= pw 10.
  Proof.
    intros t Ht. pose proof (log10_range t Ht) as HL.
    pose proof (near_log10 emin prec F HA t 3 ltac:(lra) ltac:(apply Rabs_le; lra) ltac:(lra)) as HN.
    unfold near in HN. pose proof (u_small prec Hprec) as Hu.
    pose proof (bpow_gt_0 radix2 (- prec)) as Hu0.
    apply Rabs_le_inv in HN. change (pw 10) with 1024. apply Rabs_le. lra.
  Qed.

  Lemma finite_log_mah : forall p t lgt0, closed_legal p -> 1 / 1000 <= t ->
    -1 <= lgt0 <= 14 / 10 ->
    @logmh_at_t_obs xr X (inject p) (Fin t) (Fin lgt0) = Fin (fl_log_mah F p t lgt0).
  Proof.
    intros p t lgt0 HL Ht H0. pose proof (fa_ordered _ _ _ HA) as HF.
    assert (HPk : 1 / 1000 <= t_peak p <= 20) by (apply HL).
    pose proof (closed_sized p lgt0 HL H0) as HS.
    unfold fl_log_mah, logmh_at_t_obs, log_mah_kern, jwhere.
    change (t_peak (inject p)) with (Fin (t_peak p)).
    cbn [nltb Num_xfl Num_fl xltb].
    destruct (Rltb_spec t (t_peak p)) as [[-> H1] | [-> H1]].
    - apply (fine_noq F HF big faithful_pow2 HB p t lgt0 HS); [lra | apply lib_log10_size; lra].
    - apply (fine_noq F HF big faithful_pow2 HB p (t_peak p) lgt0 HS); [lra | now apply lib_log10_size].
  Qed.

  Lemma noq_top : forall p t lgt0, closed_legal p -> 1 / 1000 <= t <= 20 ->
    -1 <= lgt0 <= 14 / 10 -> log10 t <= lgt0 \/ 1 <= lgt0 ->
    @log_mah_noq_kern R (Num_fl F) p t lgt0 <= 211 / 10.
  Proof.
    intros p t lgt0 HL Ht H0 HD. pose proof (log10_range t Ht) as HR.
    pose proof (noq_error emin prec Hprec Hemin F HA p t lgt0 HL HR ltac:(lra) H0) as HN.
    unfold near in HN. apply Rabs_le_inv in HN.
    pose proof (u_small prec Hprec) as Hu. pose proof (bpow_gt_0 radix2 (- prec)) as Hu0.
    assert (HE : @log_mah_noq_kern R Num_R p t lgt0 <= 21).
    { change (@log_mah_noq_kern R Num_R p t lgt0) with
        ((early_index p + (late_index p - early_index p) *
          logistic (35 / 10 * (log10 t - logtc p))) * (log10 t - lgt0) + logm0 p).
      pose proof (logistic_bounds (35 / 10 * (log10 t - logtc p))) as Hs.
      set (s := logistic (35 / 10 * (log10 t - logtc p))) in *.
      destruct HL as (Hm & Hc & Hl & He & _). unfold within in *.
      assert (Hidx : 0 <= early_index p + (late_index p - early_index p) * s <= 10) by nra.
      set (ix := early_index p + (late_index p - early_index p) * s) in *.
      destruct HD as [HD | HD]; nra. }
    lra.
  Qed.

  Lemma pow10_tenth : pow10 (1 / 10) <= 2.
  Proof.
    set (y := pow10 (1 / 10)).
    assert (H : y ^ 10 = 10).
    { unfold y. cbn [pow]. rewrite Rmult_1_r, <- !pow10_plus.
      transitivity (pow10 1); [f_equal; lra | exact pow10_1]. }
    pose proof (pow10_pos (1 / 10)) as Hp. fold y in Hp.
    destruct (Rle_or_lt y 2) as [|Hy]; [assumption|].
    assert (2 ^ 10 <= y ^ 10) by (apply pow_incr; lra). cbn [pow] in *. lra.
  Qed.

  Lemma pow10_21 : pow10 21 = 10 ^ 21.
  Proof.
    replace 21 with (1+1+1+1+1+1+1+1+1+1+1+1+1+1+1+1+1+1+1+1+1) by lra.
    rewrite !pow10_plus, pow10_1. cbn [pow]. lra.
  Qed.

  Lemma lib_pow10_top : forall x, x <= 211 / 10 -> Rabs (lib_pow10 F x) <= pw 71.
  Proof.
    intros x Hx. pose proof (fa_ordered _ _ _ HA) as HF.
    destruct (oa_pow10 F HF x) as [H0 _]. rewrite Rabs_pos_eq by exact H0.
    pose proof (oa_pow10_mono F HF x (211 / 10) Hx) as H1.
    pose proof (fa_pow10 _ _ _ HA (211 / 10) ltac:(lra)) as H2. apply Rabs_le_inv in H2.
    assert (H3 : pow10 (211 / 10) <= 2 * 10 ^ 21).
    { replace (211 / 10) with (1 / 10 + 21) by lra. rewrite pow10_plus, pow10_21.
      pose proof pow10_tenth. apply Rmult_le_compat_r; [apply pow_le; lra | assumption]. }
    change (pw 71) with 2361183241434822606848. cbn [pow] in H3. lra.
  Qed.

  Lemma finite_rate : forall p t lgt0, closed_legal p -> 1 / 1000 <= t ->
    -1 <= lgt0 <= 14 / 10 -> log10 t <= lgt0 \/ 1 <= lgt0 ->
    @dmhdt_kern_scalar xr X (inject p) (Fin t) (Fin lgt0)
    = Fin (@dmhdt_kern_scalar R (Num_fl F) p t lgt0).
  Proof.
    intros p t lgt0 HL Ht H0 HD. pose proof (fa_ordered _ _ _ HA) as HF.
    assert (HPk : 1 / 1000 <= t_peak p <= 20) by (apply HL).
    pose proof (closed_sized p lgt0 HL H0) as HS.
    unfold dmhdt_kern_scalar, jwhere. change (t_peak (inject p)) with (Fin (t_peak p)).
    cbn [nltb Num_xfl Num_fl xltb].
    destruct (Rltb_spec (t_peak p) t) as [[-> H1] | [-> H1]].
    - apply (xconst F HF big faithful_pow2 HB 0 0); [lia|]. rewrite Rabs_R0. apply bpow_ge_0.
    - apply (fine_rate_noq F HF big faithful_pow2 HB p t lgt0 HS).
      + apply Rle_trans with (/ 1048576); [right; reflexivity | lra].
      + apply Rle_trans with (pw 5); [change (pw 5) with 32; lra | apply bpow_le; lia].
      + apply lib_log10_size. lra.
      + apply lib_pow10_top. apply noq_top; auto. lra.
  Qed.
End Faithful.

(** ** Single precision *)

Lemma binary32_faithful : faithful (-149) 24 binary32.
Proof. apply ieee_faithful; lia. Qed.

Lemma binary64_faithful : faithful (-1074) 53 binary64.
Proof. apply ieee_faithful; lia. Qed.

Lemma big32_large : bpow radix2 120 <= big32.
Proof.
  unfold big32. change (bpow radix2 24) with 16777216.
  apply Rle_trans with (bpow radix2 16 * bpow radix2 104).
  - rewrite <- bpow_plus. apply bpow_le. lia.
  - apply Rmult_le_compat_r; [apply bpow_ge_0|]. change (bpow radix2 16) with 65536. lra.
Qed.

Lemma big64_large : bpow radix2 120 <= big64.
Proof.
  unfold big64. change (bpow radix2 53) with 9007199254740992.
  apply Rle_trans with (bpow radix2 16 * bpow radix2 971).
  - rewrite <- bpow_plus. apply bpow_le. lia.
  - apply Rmult_le_compat_r; [apply bpow_ge_0|]. change (bpow radix2 16) with 65536. lra.
Qed.

(** A sigmoid within 2^-26 of one is one in single precision. *)
Lemma rne32_one : forall x, 1 - bpow radix2 (-26) <= x <= 1 -> rne (-149) 24 x = 1.
Proof.
  intros x Hx.
  assert (Hp : Prec_gt_0 24) by (unfold Prec_gt_0; lia).
  pose proof (rne_int (-149) 24 ltac:(lia) ltac:(lia) 1 ltac:(lia)) as H1. cbn [IZR] in H1.
  apply Rle_antisym.
  - apply Rle_trans with (rne (-149) 24 1); [apply rne_mono; [lia | lra] | lra].
  - unfold rne. apply round_N_ge_midp; [auto with typeclass_instances | |].
    + apply rne_fix_format; [lia | exact H1].
    + change 1 with (bpow radix2 0) at 2. rewrite pred_bpow by (auto with typeclass_instances).
      unfold FLT_exp. replace (Z.max (0 - 24) (-149)) with (-24)%Z by lia.
      change (bpow radix2 0) with 1. change (bpow radix2 (-24)) with (/ 16777216).
      change (bpow radix2 (-26)) with (/ 67108864) in Hx. lra.
Qed.

Lemma exp_ge_pow2 : forall n, 2 ^ n <= exp (INR n).
Proof.
  induction n as [|n IH]; [cbn; rewrite exp_0; lra|].
  rewrite S_INR, exp_plus. cbn [pow]. pose proof (exp_ineq1_le 1).
  pose proof (exp_pos (INR n)). nra.
Qed.

Lemma logistic_32 : forall x, 32 <= x -> 1 - bpow radix2 (-26) <= logistic x <= 1.
Proof.
  intros x Hx. pose proof (logistic_bounds x) as Hb. split; [|lra].
  apply Rle_trans with (logistic 32); [|now apply logistic_le].
  unfold logistic.
  assert (He : exp (- (32)) <= bpow radix2 (-26)).
  { rewrite exp_Ropp. change (bpow radix2 (-26)) with (/ 67108864).
    assert (2 ^ 32 <= exp 32).
    { replace 32 with (INR 32) by (cbn; lra). apply exp_ge_pow2. }
    apply Rinv_le_contravar; [lra|]. cbn [pow] in H. lra. }
  pose proof (exp_pos (- (32))) as Hp.
  assert (1 - exp (- (32)) <= / (1 + exp (- (32)))).
  { apply Rmult_le_reg_r with (1 + exp (- (32))); [lra|]. rewrite Rinv_l by lra. nra. }
  lra.
Qed.

Lemma rd32_int : forall m, (Z.abs m < 64)%Z -> rnd binary32 (IZR m) = IZR m.
Proof. exact (faithful_int (-149) 24 ltac:(lia) ltac:(lia) binary32 binary32_faithful). Qed.

Lemma x32_fin : forall r, rnd binary32 r = r -> Rabs r <= bpow radix2 120 ->
  xround binary32 big32 (Fin r) = Fin r.
Proof.
  intros r H1 H2. cbn [xround]. rewrite H1.
  apply (no_over big32 big32_large r 120); [lia | exact H2].
Qed.

Lemma size120 : forall r, -1000 <= r <= 1000 -> Rabs r <= bpow radix2 120.
Proof.
  intros r H. apply Rle_trans with (bpow radix2 10); [|apply bpow_le; lia].
  change (bpow radix2 10) with 1024. apply Rabs_le. lra.
Qed.

(** Bounding a moderately large number gives the upper bound itself. *)
Lemma saturated : forall lo hi x, rnd binary32 lo = lo -> rnd binary32 hi = hi ->
  rnd binary32 (hi - lo) = hi - lo -> rnd binary32 ((lo + hi) / 2) = (lo + hi) / 2 ->
  rnd binary32 (lo + hi) = lo + hi -> rnd binary32 (x - (lo + hi) / 2) = x - (lo + hi) / 2 ->
  -30 <= lo <= 30 -> -30 <= hi <= 30 -> 600 <= x <= 900 ->
  @get_bounded_diffmah_param xr (Num_xfl binary32 big32) (Fin x) (Fin lo, Fin hi) = Fin hi.
Proof.
  intros lo hi x Hl Hh Hd Hm Hs Hx Bl Bh Bx.
  pose proof (fa_ordered _ _ _ binary32_faithful) as HF.
  pose proof (faithful_pow2 (-149) 24 ltac:(lia) ltac:(lia) binary32 binary32_faithful) as HP.
  pose proof (half_machine binary32 HP) as H2.
  assert (HT : / 16 <= rnd binary32 (1 / 10) <= 1).
  { split.
    - apply (rd_ge binary32 HF); [|lra]. exact (HP (-4)%Z ltac:(lia)).
    - apply (rd_le binary32 HF); [exact (HP 0%Z ltac:(lia)) | lra]. }
  assert (H32 : machine binary32 32) by exact (HP 5%Z ltac:(lia)).
  assert (H1024 : machine binary32 1024) by exact (HP 10%Z ltac:(lia)).
  set (k := rnd binary32 (1 / 10)) in *.
  unfold get_bounded_diffmah_param, sigmoid, BOUNDING_K.
  cbn [nmul nadd nsub nlogistic nconst Num_xfl].
  replace (xround binary32 big32 (Fin (1 / 10))) with (Fin k).
  2:{ symmetry. cbn [xround]. fold k. apply (no_over big32 big32_large k 120); [lia|].
      apply size120. lra. }
  rewrite (x32_fin (1 / 2) H2) by (apply size120; lra).
  cbn [xadd xsub xneg xmul].
  rewrite (x32_fin (lo + hi) Hs) by (apply size120; lra). cbn [xmul].
  replace (1 / 2 * (lo + hi)) with ((lo + hi) / 2) by lra.
  rewrite (x32_fin ((lo + hi) / 2) Hm) by (apply size120; lra). cbn [xneg xadd].
  replace (x + - ((lo + hi) / 2)) with (x - (lo + hi) / 2) by ring.
  rewrite (x32_fin _ Hx) by (apply size120; lra). cbn [xmul].
  set (a := x - (lo + hi) / 2) in *.
  assert (Ha : 32 <= rnd binary32 (k * a) <= 1024).
  { split; [apply (rd_ge binary32 HF); [exact H32|] | apply (rd_le binary32 HF); [exact H1024|]];
      unfold a; nra. }
  replace (xround binary32 big32 (Fin (k * a))) with (Fin (rnd binary32 (k * a))).
  2:{ symmetry. cbn [xround]. apply (no_over big32 big32_large _ 120); [lia|].
      apply Rle_trans with (bpow radix2 10); [|apply bpow_le; lia].
      change (bpow radix2 10) with 1024. apply Rabs_le. lra. }
  cbn [xlib]. change (lib_logistic binary32 (rnd binary32 (k * a)))
    with (rne (-149) 24 (logistic (rnd binary32 (k * a)))).
  rewrite (rne32_one _ (logistic_32 _ (proj1 Ha))).
  replace (overflow big32 1) with (Fin 1).
  2:{ symmetry. apply (no_over big32 big32_large 1 120); [lia | apply size120; lra]. }
  replace (hi + - lo) with (hi - lo) by ring.
  rewrite (x32_fin _ Hd) by (apply size120; lra). cbn [xmul]. rewrite Rmult_1_r.
  rewrite (x32_fin _ Hd) by (apply size120; lra). cbn [xadd].
  replace (lo + (hi - lo)) with hi by ring.
  apply x32_fin; [exact Hh | apply size120; lra].
Qed.

Lemma rd32_half : forall m, (Z.abs m < 64)%Z -> rnd binary32 (IZR m / 2) = IZR m / 2.
Proof.
  intros m Hm. replace (IZR m / 2) with (IZR m * bpow radix2 (-1))
    by (change (bpow radix2 (-1)) with (/ 2); lra).
  apply (rne_pow2 (-149) 24 ltac:(lia) m (-1) Hm). lia.
Qed.

(** logm0 = 17 exactly: the bound is attained. *)
Lemma saturates_17 :
  @get_bounded_diffmah_param xr (Num_xfl binary32 big32) (Fin (1617 / 2)) (Fin 0, Fin 17)
  = Fin 17.
Proof.
  apply saturated; try lra.
  - exact (rd32_int 0 ltac:(lia)).
  - exact (rd32_int 17 ltac:(lia)).
  - replace (17 - 0) with 17 by ring. exact (rd32_int 17 ltac:(lia)).
  - replace ((0 + 17) / 2) with (IZR 17 / 2) by lra. exact (rd32_half 17 ltac:(lia)).
  - replace (0 + 17) with 17 by ring. exact (rd32_int 17 ltac:(lia)).
  - replace (1617 / 2 - (0 + 17) / 2) with (IZR 25 * bpow radix2 5)
      by (change (bpow radix2 5) with 32; lra).
    apply (rne_pow2 (-149) 24 ltac:(lia) 25 5); lia.
Qed.

(** Unbounding the upper bound gives infinity. *)
Lemma unbound_17 :
  @get_unbounded_diffmah_param xr (Num_xfl binary32 big32) (Fin 17) (Fin 0, Fin 17) = PInf.
Proof.
  pose proof (faithful_pow2 (-149) 24 ltac:(lia) ltac:(lia) binary32 binary32_faithful) as HP.
  pose proof (half_machine binary32 HP) as H2.
  pose proof (fa_ordered _ _ _ binary32_faithful) as HF.
  assert (HT : / 16 <= rnd binary32 (1 / 10) <= 1).
  { split.
    - apply (rd_ge binary32 HF); [|lra]. exact (HP (-4)%Z ltac:(lia)).
    - apply (rd_le binary32 HF); [exact (HP 0%Z ltac:(lia)) | lra]. }
  unfold get_unbounded_diffmah_param, inverse_sigmoid, BOUNDING_K.
  cbn [nmul nadd nsub ndiv nlog nconst Num_xfl].
  rewrite (x32_fin (1 / 2) H2) by (apply size120; lra).
  rewrite (x32_fin 1 (rd32_int 1 ltac:(lia))) by (apply size120; lra).
  replace (xround binary32 big32 (Fin (1 / 10))) with (Fin (rnd binary32 (1 / 10))).
  2:{ symmetry. cbn [xround]. apply (no_over big32 big32_large _ 120); [lia|].
      apply size120. lra. }
  set (k := rnd binary32 (1 / 10)) in *.
  cbn [xadd xsub xneg xmul].
  replace (0 + 17) with 17 by ring. replace (17 + - 0) with 17 by ring.
  rewrite (x32_fin 17 (rd32_int 17 ltac:(lia))) by (apply size120; lra).
  cbn [xmul xdiv].
  replace (1 / 2 * 17) with (IZR 17 / 2) by lra.
  rewrite (x32_fin _ (rd32_half 17 ltac:(lia))) by (apply size120; lra).
  unfold Reqb at 1. destruct (Req_EM_T 17 0) as [E | _]; [lra|].
  replace (17 / 17) with 1 by lra.
  rewrite (x32_fin 1 (rd32_int 1 ltac:(lia))) by (apply size120; lra). cbn [xsub xneg xadd].
  replace (1 + - (1)) with 0 by ring.
  rewrite (x32_fin 0 (rd32_int 0 ltac:(lia))) by (apply size120; lra).
  cbn [xliblog].
  destruct (Rltb_spec 0 0) as [[_ H] | [-> _]]; [lra|]. cbn [xlog_gen].
  destruct (Rltb_spec 0 0) as [[_ H] | [-> _]]; [lra|].
  unfold Reqb. destruct (Req_EM_T 0 0) as [_ | E]; [|lra]. cbn [xdiv].
  unfold Reqb. destruct (Req_EM_T k 0) as [E | _]; [lra|].
  unfold xscale_inf, Reqb. destruct (Req_EM_T k 0) as [E | _]; [lra|].
  destruct (Rltb_spec 0 k) as [[-> _] | [_ H]]; [|lra]. reflexivity.
Qed.
