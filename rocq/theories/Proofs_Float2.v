(** IEEE round-to-nearest arithmetic: it is ordered, and the bounding transform
    stays inside its bounds. *)

From Coq Require Import Reals ZArith Lra Lia List.
From Flocq Require Import Core.
From Verif Require Import Model_Num Model_Kernels Model_Float Spec_Float RealAux Proofs_Float.
Local Open Scope R_scope.

Section Ieee.
  Variables emin prec : Z.
  Hypothesis Hprec : (6 <= prec)%Z.
  Hypothesis Hemin : (emin <= - prec)%Z.

  Local Instance prec_gt_0_ieee : Prec_gt_0 prec.
  Proof. unfold Prec_gt_0. lia. Qed.

  Local Notation fexp := (FLT_exp emin prec).
  Local Notation rd := (rne emin prec).

  Lemma rne_mono : forall x y, x <= y -> rd x <= rd y.
  Proof. intros x y H. unfold rne. apply round_le; auto with typeclass_instances. Qed.

  Lemma rne_format : forall x, generic_format radix2 fexp (rd x).
  Proof. intros x. unfold rne. apply generic_format_round; auto with typeclass_instances. Qed.

  Lemma rne_id : forall x, generic_format radix2 fexp x -> rd x = x.
  Proof. intros x H. unfold rne. apply round_generic; auto with typeclass_instances. Qed.

  Lemma rne_fix_format : forall x, rd x = x -> generic_format radix2 fexp x.
  Proof. intros x H. rewrite <- H. apply rne_format. Qed.

  (** Integers times powers of two are machine numbers. *)
  Lemma format_F2R : forall m e, (Z.abs m < 2 ^ prec)%Z -> (emin <= e)%Z ->
    generic_format radix2 fexp (IZR m * bpow radix2 e).
  Proof.
    intros m e Hm He. apply generic_format_FLT.
    exists (Float radix2 m e); [reflexivity | cbn [Fnum]; exact Hm | cbn [Fexp]; exact He].
  Qed.

  Lemma pow2_ge : (64 <= 2 ^ prec)%Z.
  Proof. change 64%Z with (2 ^ 6)%Z. apply Z.pow_le_mono_r; lia. Qed.

  Lemma rne_int : forall m, (Z.abs m < 64)%Z -> rd (IZR m) = IZR m.
  Proof.
    intros m Hm. apply rne_id. replace (IZR m) with (IZR m * bpow radix2 0) by (cbn; ring).
    apply format_F2R; [pose proof pow2_ge; lia | lia].
  Qed.

  Lemma rne_pow2 : forall m e, (Z.abs m < 64)%Z -> (emin <= e)%Z ->
    rd (IZR m * bpow radix2 e) = IZR m * bpow radix2 e.
  Proof.
    intros m e Hm He. apply rne_id. apply format_F2R; [pose proof pow2_ge; lia | exact He].
  Qed.

  Lemma rne_opp : forall x, rd x = x -> rd (- x) = - x.
  Proof.
    intros x H. apply rne_id. apply generic_format_opp. now apply rne_fix_format.
  Qed.

  (** Every monotone library over this rounding qualifies; in particular the
      correctly rounded one. *)
  Lemma ieee_ordered : ordered_arith (ieee emin prec).
  Proof.
    assert (Hi : forall x, rd (rd x) = rd x) by (intros x; apply rne_id, rne_format).
    assert (H0 : rd 0 = 0) by (apply (rne_int 0); lia).
    assert (H1 : rd 1 = 1) by (apply (rne_int 1); lia).
    split; unfold machine; cbn [ieee rnd lib_logistic lib_log10 lib_pow10].
    - exact rne_mono.
    - exact Hi.
    - exact H0.
    - exact H1.
    - exact rne_opp.
    - intros x. pose proof (logistic_bounds x). split; [|apply Hi].
      split; [rewrite <- H0 | rewrite <- H1]; apply rne_mono; lra.
    - intros x y H. apply rne_mono. now apply logistic_le.
    - intros x. apply Hi.
    - intros x y Hx H. apply rne_mono. unfold log10.
      apply Rmult_le_compat_r.
      + left. apply Rinv_0_lt_compat. rewrite <- ln_1. apply ln_increasing; lra.
      + destruct H as [H | ->]; [left; apply ln_increasing; lra | lra].
    - intros x. split; [|apply Hi]. rewrite <- H0. apply rne_mono. unfold pow10.
      left. apply exp_pos.
    - intros x y H. apply rne_mono. unfold pow10.
      assert (0 < ln 10) by (rewrite <- ln_1; apply ln_increasing; lra).
      assert (Hxy : x * ln 10 <= y * ln 10) by nra.
      destruct Hxy as [Hxy | ->]; [left; now apply exp_increasing | lra].
  Qed.

  (** Ties go to the even neighbour, so half a unit above an even number rounds
      back to it. *)
  Lemma rne_half_above : forall hi m x,
    0 < hi -> hi = IZR (2 * m) * bpow radix2 (cexp radix2 fexp hi) ->
    x <= hi + / 2 * ulp radix2 fexp hi -> rd x <= hi.
  Proof.
    intros hi m x Hp Hm Hx.
    assert (Hf : generic_format radix2 fexp hi).
    { apply (generic_format_F2R' radix2 fexp hi (Float radix2 (2 * m) (cexp radix2 fexp hi))).
      - symmetry. exact Hm.
      - intros _. apply Z.le_refl. }
    apply Rle_trans with (rd (hi + / 2 * ulp radix2 fexp hi)); [now apply rne_mono|].
    assert (Hu : ulp radix2 fexp hi = bpow radix2 (cexp radix2 fexp hi)).
    { apply ulp_neq_0. lra. }
    set (c := cexp radix2 fexp hi) in *.
    pose proof (bpow_gt_0 radix2 c) as Hb.
    assert (Hmag : mag radix2 (hi + / 2 * ulp radix2 fexp hi) = mag radix2 hi :> Z).
    { apply mag_unique_pos. pose proof (bpow_mag_le radix2 hi ltac:(lra)) as HL.
      rewrite Rabs_pos_eq in HL by lra. rewrite Hu. split; [lra|].
      pose proof (bpow_mag_gt radix2 hi) as HG. rewrite Rabs_pos_eq in HG by lra.
      pose proof (id_p_ulp_le_bpow radix2 fexp hi (mag radix2 hi) Hp Hf HG) as HI.
      rewrite Hu in HI. lra. }
    unfold rne, round.
    assert (Hc : cexp radix2 fexp (hi + / 2 * ulp radix2 fexp hi) = c).
    { unfold c, cexp. now rewrite Hmag. }
    unfold scaled_mantissa. rewrite Hc.
    replace ((hi + / 2 * ulp radix2 fexp hi) * bpow radix2 (- c)) with (IZR (2 * m) + / 2).
    2:{ rewrite Hu, Hm, Rmult_plus_distr_r, !Rmult_assoc, <- !bpow_plus, Z.add_opp_diag_r.
        cbn [bpow]. ring. }
    replace (ZnearestE (IZR (2 * m) + / 2)) with (2 * m)%Z.
    - unfold F2R; cbn [Fnum Fexp]. rewrite <- Hm. lra.
    - unfold Znearest.
      replace (Zfloor (IZR (2 * m) + / 2)) with (2 * m)%Z.
      + rewrite Rcompare_Eq by lra.
        replace (Z.even (2 * m)) with true; [reflexivity|].
        rewrite Z.even_mul. reflexivity.
      + symmetry. apply Zfloor_imp. rewrite plus_IZR. lra.
  Qed.

  (** A number [n < 32] below a power of two of the format is even there. *)
  Lemma small_even : forall n e, (0 < n)%Z -> (1 <= e <= 5)%Z -> (2 ^ (e - 1) <= n < 2 ^ e)%Z ->
    exists m, IZR n = IZR (2 * m) * bpow radix2 (cexp radix2 fexp (IZR n)).
  Proof.
    intros n e Hn He Hb.
    assert (Hmag : mag radix2 (IZR n) = e :> Z).
    { apply mag_unique_pos. rewrite <- !IZR_Zpower by lia.
      split; [apply IZR_le | apply IZR_lt]; cbn [radix_val radix2] in *; lia. }
    assert (Hc : cexp radix2 fexp (IZR n) = (e - prec)%Z).
    { unfold cexp, FLT_exp. rewrite Hmag. lia. }
    rewrite Hc. exists (n * 2 ^ (prec - e - 1))%Z.
    replace (2 * (n * 2 ^ (prec - e - 1)))%Z with (n * 2 ^ (prec - e))%Z.
    - rewrite mult_IZR. change 2%Z with (radix_val radix2). rewrite IZR_Zpower by lia.
      rewrite Rmult_assoc, <- bpow_plus.
      replace (prec - e + (e - prec))%Z with 0%Z by lia. cbn. ring.
    - set (k := (prec - e - 1)%Z). replace (prec - e)%Z with (Z.succ k) by (unfold k; lia).
      rewrite Z.pow_succ_r by lia. ring.
  Qed.
End Ieee.

Section Bounded.
  Variables emin prec : Z.
  Hypothesis Hprec : (6 <= prec)%Z.
  Hypothesis Hemin : (emin <= - prec)%Z.
  Variable F : arith.
  Hypothesis HF : ordered_arith F.
  Hypothesis HR : forall x, rnd F x = rne emin prec x.

  Local Instance prec_gt_0_bounded : Prec_gt_0 prec.
  Proof. unfold Prec_gt_0. lia. Qed.

  Lemma rnd_int : forall m, (Z.abs m < 64)%Z -> rnd F (IZR m) = IZR m.
  Proof. intros m H. rewrite HR. now apply rne_int. Qed.

  (** A rising ramp whose width is a machine number stays below its top. *)
  Lemma ramp_up_le_exact : forall lo hi s, machine F hi -> machine F (hi - lo) -> lo <= hi ->
    0 <= s <= 1 -> ramp F lo hi s <= hi.
  Proof.
    intros lo hi s Hh Hd Hlo Hs. unfold ramp. apply (rd_le F HF); [exact Hh|].
    rewrite Hd.
    assert (rnd F ((hi - lo) * s) <= hi - lo) by (apply (rd_le F HF); [exact Hd | nra]).
    lra.
  Qed.

  (** A rising ramp to a small integer from a nonnegative number does too. *)
  Lemma ramp_up_le_int : forall lo n e s, (1 <= e <= 5)%Z -> (2 ^ (e - 1) <= n < 2 ^ e)%Z ->
    0 <= lo <= IZR n -> 0 <= s <= 1 -> ramp F lo (IZR n) s <= IZR n.
  Proof.
    intros lo n e s He Hb Hlo Hs.
    assert (Hn : (0 < n)%Z).
    { pose proof (Z.pow_pos_nonneg 2 (e - 1)). lia. }
    destruct (small_even emin prec Hprec Hemin n e Hn He Hb) as [m Hm].
    unfold ramp. rewrite (HR (lo + _)).
    apply (rne_half_above emin prec Hprec _ m); [now apply IZR_lt | exact Hm|].
    set (hi := IZR n) in *.
    set (d := rnd F (hi - lo)).
    assert (Hdm : machine F d) by (apply (oa_idem F HF)).
    assert (Hd0 : 0 <= d) by (apply (rd_nonneg F HF); lra).
    assert (H1 : rnd F (d * s) <= d) by (apply (rd_le F HF); [exact Hdm | nra]).
    assert (H2 : Rabs (d - (hi - lo)) <= / 2 * ulp radix2 (FLT_exp emin prec) (hi - lo)).
    { unfold d. rewrite HR. unfold rne. apply error_le_half_ulp. auto with typeclass_instances. }
    assert (H3 : ulp radix2 (FLT_exp emin prec) (hi - lo) <= ulp radix2 (FLT_exp emin prec) hi).
    { apply ulp_le_pos; auto with typeclass_instances; lra. }
    pose proof (Rle_abs (d - (hi - lo))). lra.
  Qed.

  Lemma logistic_range : forall x, 0 <= lib_logistic F x <= 1.
  Proof. intros x. apply (oa_logistic F HF). Qed.

  Lemma fl_bounded_param : forall u lo hi,
    @get_bounded_diffmah_param R (Num_fl F) u (lo, hi)
    = ramp F lo hi (lib_logistic F (rnd F (rnd F (1 / 10) *
        rnd F (u - rnd F (rnd F (1 / 2) * rnd F (lo + hi)))))).
  Proof. reflexivity. Qed.

  Lemma ramp_machine : forall lo hi s, machine F (ramp F lo hi s).
  Proof. intros. apply (oa_idem F HF). Qed.

  Lemma tenth_range : 0 <= rnd F (1 / 10) <= 1.
  Proof.
    split; [apply (rd_nonneg F HF); lra|]. apply (rd_le F HF); [apply (oa_one F HF) | lra].
  Qed.

  Lemma twentieth_range : 0 <= rnd F (5 / 100) <= 1.
  Proof.
    split; [apply (rd_nonneg F HF); lra|]. apply (rd_le F HF); [apply (oa_one F HF) | lra].
  Qed.

  (** The five ramps of the bounding transform, whatever the sigmoid returns. *)
  Lemma ramps_legal : forall s1 s2 s3 s4 s5,
    0 <= s1 <= 1 -> 0 <= s2 <= 1 -> 0 <= s3 <= 1 -> 0 <= s4 <= 1 -> 0 <= s5 <= 1 ->
    let late := ramp F (rnd F (1 / 10)) 5 s4 in
    let p := mkParams (ramp F 0 17 s1) (ramp F (-1) 1 s2) (ramp F late 10 s3) late
               (ramp F (rnd F (5 / 100)) 20 s5) in
    within 0 (logm0 p) 17 /\ within (-1) (logtc p) 1 /\
    within (rnd F (1 / 10)) (late_index p) 5 /\
    within (late_index p) (early_index p) 10 /\
    within (rnd F (5 / 100)) (t_peak p) 20 /\ machine_params F p.
  Proof.
    intros s1 s2 s3 s4 s5 H1 H2 H3 H4 H5 late p. subst p.
    unfold machine_params. cbn [logm0 logtc early_index late_index t_peak].
    pose proof tenth_range as HT. pose proof twentieth_range as HW.
    assert (M0 : machine F 0) by (exact (oa_zero F HF)).
    assert (M17 : machine F 17) by (apply (rnd_int 17); lia).
    assert (M1 : machine F 1) by (exact (oa_one F HF)).
    assert (Mm1 : machine F (-1)) by (apply (rnd_int (-1)); lia).
    assert (M2 : machine F (1 - -1)) by (replace (1 - -1) with 2 by ring; apply (rnd_int 2); lia).
    assert (M17' : machine F (17 - 0)) by (now rewrite Rminus_0_r).
    assert (MT : machine F (rnd F (1 / 10))) by (apply (oa_idem F HF)).
    assert (MW : machine F (rnd F (5 / 100))) by (apply (oa_idem F HF)).
    unfold within.
    split; [split; [apply (ramp_up_ge F HF); auto; lra | apply ramp_up_le_exact; auto; lra]|].
    split; [split; [apply (ramp_up_ge F HF); auto; lra | apply ramp_up_le_exact; auto; lra]|].
    assert (HL : rnd F (1 / 10) <= late <= 5).
    { split; [apply (ramp_up_ge F HF); auto; lra|].
      apply (ramp_up_le_int _ 5 3); [lia | cbn; lia | lra | assumption]. }
    split; [exact HL|].
    split.
    { split; [apply (ramp_up_ge F HF); [apply ramp_machine | lra | lra]|].
      apply (ramp_up_le_int _ 10 4); [lia | cbn; lia | lra | assumption]. }
    split.
    { split; [apply (ramp_up_ge F HF); auto; lra|].
      apply (ramp_up_le_int _ 20 5); [lia | cbn; lia | lra | assumption]. }
    split; [apply ramp_machine|]. split; [apply ramp_machine|]. split; [apply ramp_machine|].
    split; apply ramp_machine.
  Qed.
End Bounded.
