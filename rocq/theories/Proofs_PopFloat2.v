(** One bounded population parameter in machine arithmetic. *)

From Coq Require Import Reals ZArith String List Bool Arith Lra Lia.
From Flocq Require Import Core.
From Verif Require Import Model_Num Model_Kernels Model_Base Model_PopBase
  Model_Float Spec_Float RealAux Proofs_Float Proofs_Float2 Proofs_Float3
  Proofs_Float4 Proofs_Float5 Proofs_FloatQ.
Import ListNotations.
Local Open Scope R_scope.

Section One.
  Variables emin prec : Z.
  Hypothesis Hprec : (20 <= prec)%Z.
  Hypothesis Hemin : (emin <= - prec - 100)%Z.
  Variable F : arith.
  Hypothesis HA : faithful emin prec F.
  Variable big : R.
  Hypothesis HB : bpow radix2 120 <= big.

  Local Notation X := (Num_xfl F big).
  Local Notation pw := (bpow radix2).
  Local Notation rd := (rnd F).
  Let HF := fa_ordered _ _ _ HA.
  Let HP := faithful_pow2 emin prec Hprec Hemin F HA.

  Lemma pconst : forall r, Rabs r <= pw 7 -> @nconst xr X r = Fin (rd r).
  Proof. intros r H. apply (xconst F HF big HP HB r 7); [lia | exact H]. Qed.

  Lemma pmid : forall lo hi, Rabs lo <= pw 7 -> Rabs hi <= pw 7 ->
    @nmul xr X (@nconst xr X (1 / 2)) (@nadd xr X (Fin lo) (Fin hi))
    = Fin (rd (rd (1 / 2) * rd (lo + hi))).
  Proof.
    intros lo hi Hl Hh.
    assert (HM : fine (@nmul xr X (@nconst xr X (1 / 2)) (@nadd xr X (Fin lo) (Fin hi)))
      (@nmul R (Num_fl F) (@nconst R (Num_fl F) (1 / 2)) (@nadd R (Num_fl F) lo hi)) 9).
    { eapply (fine_mul F HF big HP HB) with (a := 0%Z) (b := 8%Z); [| | lia | lia].
      - apply (fine_const F HF big HP HB); [lia|]. change (pw 0) with 1. rewrite Rabs_pos_eq; lra.
      - eapply (fine_add F HF big HP HB) with (a := 7%Z) (b := 7%Z); try (now apply fine_fin); lia. }
    exact (proj1 HM).
  Qed.

  Lemma pramp : forall lo hi s, Rabs lo <= pw 7 -> Rabs hi <= pw 7 -> 0 <= s <= 1 ->
    @nadd xr X (Fin lo) (@nmul xr X (@nsub xr X (Fin hi) (Fin lo)) (Fin s)) = Fin (ramp F lo hi s).
  Proof.
    intros lo hi s Hl Hh Hs.
    assert (H : fine (@nadd xr X (Fin lo) (@nmul xr X (@nsub xr X (Fin hi) (Fin lo)) (Fin s)))
      (@nadd R (Num_fl F) lo (@nmul R (Num_fl F) (@nsub R (Num_fl F) hi lo) s)) 9).
    { eapply (fine_add F HF big HP HB) with (a := 7%Z) (b := 8%Z); [now apply fine_fin | | lia | lia | lia].
      eapply (fine_mul F HF big HP HB) with (a := 8%Z) (b := 0%Z); [| | lia | lia].
      - eapply (fine_sub F HF big HP HB) with (a := 7%Z) (b := 7%Z); try (now apply fine_fin); lia.
      - apply fine_fin. change (pw 0) with 1. apply Rabs_le. lra. }
    exact (proj1 H).
  Qed.

  (** The parameter is a ramp between the machine bounds. *)
  Lemma param_ramp : forall (x : xr) lo hi, x <> NaN -> Rabs lo <= pw 7 -> Rabs hi <= pw 7 ->
    exists s, 0 <= s <= 1 /\ @get_bounded_param xr X x (lo, hi) = Fin (ramp F (rd lo) (rd hi) s).
  Proof.
    intros x lo hi Hx Hl Hh. unfold get_bounded_param, K_BOUNDING, sigmoid. cbn [fst snd].
    assert (Hl' := rd_abs F HF HP lo 7 ltac:(lia) Hl). assert (Hh' := rd_abs F HF HP hi 7 ltac:(lia) Hh).
    rewrite (pconst lo Hl), (pconst hi Hh), (pmid _ _ Hl' Hh').
    rewrite (pconst (1 / 10)) by (change (pw 7) with 128; rewrite Rabs_pos_eq; lra).
    destruct (xlogistic_range F HF big HB _
      (arg_not_nan F big x (rd (rd (1 / 2) * rd (rd lo + rd hi))) (rd (1 / 10)) Hx (tenth_pos F HF HP)))
      as (s & Hs & ->).
    exists s. split; [exact Hs|]. now apply pramp.
  Qed.

  Lemma param_range : forall (x : xr) lo hi, x <> NaN -> Rabs lo <= pw 7 -> Rabs hi <= pw 7 -> lo <= hi ->
    exists r, @get_bounded_param xr X x (lo, hi) = Fin r /\ machine F r /\
      rd lo <= r <= rd (rd lo + rd (rd hi - rd lo)).
  Proof.
    intros x lo hi Hx Hl Hh H. destruct (param_ramp x lo hi Hx Hl Hh) as (s & Hs & E).
    exists (ramp F (rd lo) (rd hi) s). split; [exact E|]. split; [apply (oa_idem F HF)|].
    pose proof (oa_mono F HF lo hi H) as Hm. split.
    - apply (ramp_up_ge F HF); [apply (oa_idem F HF) | exact Hm | lra].
    - apply Rle_trans with (ramp F (rd lo) (rd hi) 1).
      + apply (ramp_up_monotone F HF); [exact Hm | lra].
      + unfold ramp. rewrite Rmult_1_r. rewrite (oa_idem F HF (rd hi - rd lo)). lra.
  Qed.

  (** ** Accuracy *)

  Let u := pw (- prec).

  Lemma rd_err : forall z M, Rabs z <= M -> 1 <= M -> Rabs (rd z - z) <= u * M.
  Proof. intros z M Hz HM. rewrite (fa_rnd _ _ _ HA). apply rne_err; auto; lia. Qed.

  Lemma param_finite : forall x lo hi, Rabs x <= pw 7 -> Rabs lo <= pw 7 -> Rabs hi <= pw 7 ->
    @get_bounded_param xr X (Fin x) (lo, hi) = Fin (@get_bounded_param R (Num_fl F) x (lo, hi)).
  Proof.
    intros x lo hi Hx Hl Hh. unfold get_bounded_param, K_BOUNDING, sigmoid. cbn [fst snd].
    assert (Hl' := rd_abs F HF HP lo 7 ltac:(lia) Hl). assert (Hh' := rd_abs F HF HP hi 7 ltac:(lia) Hh).
    assert (HT : Rabs (1 / 10) <= pw 0) by (change (pw 0) with 1; rewrite Rabs_pos_eq; lra).
    assert (HH : Rabs (1 / 2) <= pw 0) by (change (pw 0) with 1; rewrite Rabs_pos_eq; lra).
    assert (H : fine (@nadd xr X (@nconst xr X lo) (@nmul xr X (@nsub xr X (@nconst xr X hi) (@nconst xr X lo))
        (@nlogistic xr X (@nmul xr X (@nconst xr X (1 / 10)) (@nsub xr X (Fin x)
          (@nmul xr X (@nconst xr X (1 / 2)) (@nadd xr X (@nconst xr X lo) (@nconst xr X hi))))))))
      (let N := Num_fl F in @nadd R N (@nconst R N lo) (@nmul R N (@nsub R N (@nconst R N hi) (@nconst R N lo))
        (@nlogistic R N (@nmul R N (@nconst R N (1 / 10)) (@nsub R N x
          (@nmul R N (@nconst R N (1 / 2)) (@nadd R N (@nconst R N lo) (@nconst R N hi)))))))) 9).
    { cbv zeta.
      eapply (fine_add F HF big HP HB) with (a := 7%Z) (b := 8%Z);
        [apply (fine_const F HF big HP HB); [lia | exact Hl] | | lia | lia | lia].
      eapply (fine_mul F HF big HP HB) with (a := 8%Z) (b := 0%Z); [| | lia | lia].
      - eapply (fine_sub F HF big HP HB) with (a := 7%Z) (b := 7%Z);
          try (apply (fine_const F HF big HP HB); [lia | assumption]); lia.
      - eapply (fine_logistic F HF big HB) with (a := 11%Z).
        eapply (fine_mul F HF big HP HB) with (a := 0%Z) (b := 10%Z);
          [apply (fine_const F HF big HP HB); [lia | exact HT] | | lia | lia].
        eapply (fine_sub F HF big HP HB) with (a := 7%Z) (b := 9%Z); [now apply fine_fin | | lia | lia | lia].
        eapply (fine_mul F HF big HP HB) with (a := 0%Z) (b := 8%Z);
          [apply (fine_const F HF big HP HB); [lia | exact HH] | | lia | lia].
        eapply (fine_add F HF big HP HB) with (a := 7%Z) (b := 7%Z);
          try (apply (fine_const F HF big HP HB); [lia | assumption]); lia. }
    exact (proj1 H).
  Qed.

  Lemma u_bound : 0 < u <= / 1000000.
  Proof. pose proof (u_small prec Hprec). pose proof (bpow_gt_0 radix2 (- prec)). unfold u. lra. Qed.

  Lemma rd_near : forall z y e M, Rabs (z - y) <= e -> Rabs z <= M -> 1 <= M ->
    Rabs (rd z - y) <= e + u * M.
  Proof.
    intros z y e M H1 H2 H3. pose proof (rd_err z M H2 H3) as H.
    replace (rd z - y) with ((rd z - z) + (z - y)) by ring.
    pose proof (Rabs_triang (rd z - z) (z - y)). lra.
  Qed.

  Lemma mul_near : forall a b a' b' ea eb A B, Rabs (a' - a) <= ea -> Rabs (b' - b) <= eb ->
    Rabs a <= A -> Rabs b' <= B -> Rabs (a' * b' - a * b) <= ea * B + A * eb.
  Proof.
    intros a b a' b' ea eb A B H1 H2 H3 H4.
    replace (a' * b' - a * b) with ((a' - a) * b' + a * (b' - b)) by ring.
    apply Rle_trans with (1 := Rabs_triang _ _). rewrite !Rabs_mult.
    apply Rplus_le_compat; apply Rmult_le_compat; auto using Rabs_pos.
  Qed.

  Lemma abs_near : forall a a' e A, Rabs (a' - a) <= e -> Rabs a <= A -> Rabs a' <= A + e.
  Proof.
    intros a a' e A H1 H2. replace a' with ((a' - a) + a) by ring.
    pose proof (Rabs_triang (a' - a) a). lra.
  Qed.

  Lemma param_accuracy : forall x lo hi M, Rabs x <= 100 -> Rabs lo <= M -> Rabs hi <= M -> 1 <= M <= 128 ->
    Rabs (@get_bounded_param R (Num_fl F) x (lo, hi) - get_bounded_param x (lo, hi)) <= 200 * M * u.
  Proof.
    intros x lo hi M Hx Hl Hh HM.
    destruct u_bound as [U0 U1].
    assert (V : u <= u * M <= 128 * u) by nra.
    assert (W : u * M * M <= 128 * (u * M)) by nra.
    unfold get_bounded_param, K_BOUNDING, sigmoid.
    cbn [fst snd nadd nsub nmul nconst nlogistic Num_fl Num_R].
    rewrite (half_machine F HP).
    set (l' := rd lo). set (h' := rd hi).
    assert (El : Rabs (l' - lo) <= u * M) by (apply rd_err; lra).
    assert (Eh : Rabs (h' - hi) <= u * M) by (apply rd_err; lra).
    assert (Al : Rabs l' <= M + u * M) by (now apply (abs_near lo)).
    assert (Ah : Rabs h' <= M + u * M) by (now apply (abs_near hi)).
    set (s' := rd (l' + h')).
    assert (Es : Rabs (s' - (lo + hi)) <= 41 / 10 * (u * M)).
    { apply Rle_trans with (2 * (u * M) + u * (2 * M + 2 * (u * M))).
      - apply rd_near.
        + replace (l' + h' - (lo + hi)) with ((l' - lo) + (h' - hi)) by ring.
          pose proof (Rabs_triang (l' - lo) (h' - hi)). lra.
        + pose proof (Rabs_triang l' h'). lra.
        + lra.
      - nra. }
    assert (As : Rabs (lo + hi) <= 2 * M) by (pose proof (Rabs_triang lo hi); lra).
    set (m' := rd (1 / 2 * s')).
    assert (Em0 : Rabs (1 / 2 * s' - 1 / 2 * (lo + hi)) <= 41 / 20 * (u * M)).
    { replace (1 / 2 * s' - 1 / 2 * (lo + hi)) with (1 / 2 * (s' - (lo + hi))) by ring.
      rewrite Rabs_mult, (Rabs_pos_eq (1 / 2)) by lra. lra. }
    assert (Am : Rabs (1 / 2 * (lo + hi)) <= M).
    { rewrite Rabs_mult, (Rabs_pos_eq (1 / 2)) by lra. lra. }
    assert (Em : Rabs (m' - 1 / 2 * (lo + hi)) <= 31 / 10 * (u * M)).
    { apply Rle_trans with (41 / 20 * (u * M) + u * (M + 41 / 20 * (u * M))).
      - apply rd_near; [exact Em0 | now apply (abs_near (1 / 2 * (lo + hi))) | lra].
      - nra. }
    set (m := 1 / 2 * (lo + hi)) in *.
    assert (Ed0 : Rabs (x - m' - (x - m)) <= 31 / 10 * (u * M)).
    { replace (x - m' - (x - m)) with (- (m' - m)) by ring. rewrite Rabs_Ropp. exact Em. }
    assert (Ad0 : Rabs (x - m) <= 100 + M).
    { unfold Rminus. pose proof (Rabs_triang x (- m)). rewrite Rabs_Ropp in H. lra. }
    set (d' := rd (x - m')).
    assert (Ed : Rabs (d' - (x - m)) <= 101 * u + 42 / 10 * (u * M)).
    { apply Rle_trans with (31 / 10 * (u * M) + u * (100 + M + 31 / 10 * (u * M))).
      - apply rd_near; [exact Ed0 | now apply (abs_near (x - m)) | lra].
      - nra. }
    assert (Ad : Rabs d' <= 101 + M + M / 100).
    { apply Rle_trans with (100 + M + (101 * u + 42 / 10 * (u * M))); [now apply (abs_near (x - m))|]. lra. }
    set (k' := rd (1 / 10)).
    assert (Ek : Rabs (k' - 1 / 10) <= u * 1) by (apply rd_err; [rewrite Rabs_pos_eq; lra | lra]).
    set (a' := rd (k' * d')). set (a := 1 / 10 * (x - m)) in *.
    assert (Aa0 : Rabs a <= 10 + M / 10).
    { unfold a. rewrite Rabs_mult, (Rabs_pos_eq (1 / 10)) by lra. lra. }
    assert (Ea0 : Rabs (k' * d' - a) <= 112 * u + 144 / 100 * (u * M)).
    { apply Rle_trans with (u * 1 * (101 + M + M / 100) + 1 / 10 * (101 * u + 42 / 10 * (u * M))).
      - apply mul_near; auto. rewrite Rabs_pos_eq; lra.
      - lra. }
    assert (Ea : Rabs (a' - a) <= 124 * u + 17 / 10 * (u * M)).
    { apply Rle_trans with ((112 * u + 144 / 100 * (u * M)) + u * (11 + M / 10 + M / 100)).
      - apply rd_near; [exact Ea0 | | lra].
        apply Rle_trans with (10 + M / 10 + (112 * u + 144 / 100 * (u * M))); [now apply (abs_near a)|]. lra.
      - nra. }
    set (g' := lib_logistic F a'). set (g := logistic a).
    assert (Eg : Rabs (g' - g) <= 35 * u + 43 / 100 * (u * M)).
    { pose proof (fa_logistic _ _ _ HA a') as H1. fold u in H1. fold g' in H1.
      pose proof (logistic_lip a' a) as H2. fold g in H2.
      replace (g' - g) with ((g' - logistic a') + (logistic a' - g)) by ring.
      pose proof (Rabs_triang (g' - logistic a') (logistic a' - g)). lra. }
    assert (Bg : 0 <= g' <= 1) by (apply (oa_logistic F HF)).
    assert (Bg0 : Rabs g' <= 1) by (apply Rabs_le; lra).
    set (w' := rd (h' - l')).
    assert (Ew : Rabs (w' - (hi - lo)) <= 41 / 10 * (u * M)).
    { apply Rle_trans with (2 * (u * M) + u * (2 * M + 2 * (u * M))).
      - apply rd_near.
        + replace (h' - l' - (hi - lo)) with ((h' - hi) + - (l' - lo)) by ring.
          pose proof (Rabs_triang (h' - hi) (- (l' - lo))). rewrite Rabs_Ropp in H. lra.
        + unfold Rminus. pose proof (Rabs_triang h' (- l')). rewrite Rabs_Ropp in H. lra.
        + lra.
      - nra. }
    assert (Aw : Rabs (hi - lo) <= 2 * M).
    { unfold Rminus. pose proof (Rabs_triang hi (- lo)). rewrite Rabs_Ropp in H. lra. }
    assert (Ep0 : Rabs (w' * g' - (hi - lo) * g) <= 1846 / 10 * (u * M)).
    { apply Rle_trans with (41 / 10 * (u * M) * 1 + 2 * M * (35 * u + 43 / 100 * (u * M))).
      - now apply mul_near.
      - lra. }
    assert (Aw' : Rabs w' <= 2 * M + M / 100).
    { apply Rle_trans with (2 * M + 41 / 10 * (u * M)); [now apply (abs_near (hi - lo))|]. lra. }
    set (p' := rd (w' * g')).
    assert (Awg : Rabs (w' * g') <= 2 * M + M / 100).
    { rewrite Rabs_mult. pose proof (Rabs_pos w'). pose proof (Rabs_pos g'). nra. }
    assert (Ep : Rabs (p' - (hi - lo) * g) <= 1867 / 10 * (u * M)).
    { apply Rle_trans with (1846 / 10 * (u * M) + u * (2 * M + M / 100)).
      - apply rd_near; [exact Ep0 | exact Awg | lra].
      - lra. }
    assert (Ap : Rabs p' <= 2 * M + M / 10).
    { pose proof (rd_err (w' * g') _ Awg ltac:(lra)) as H. fold p' in H.
      pose proof (abs_near _ _ _ _ H Awg). lra. }
    apply Rle_trans with ((u * M + 1867 / 10 * (u * M)) + u * (3 * M + M / 5)).
    - apply rd_near.
      + replace (l' + p' - (lo + (hi - lo) * g)) with ((l' - lo) + (p' - (hi - lo) * g)) by ring.
        pose proof (Rabs_triang (l' - lo) (p' - (hi - lo) * g)). lra.
      + pose proof (Rabs_triang l' p'). lra.
      + lra.
    - lra.
  Qed.
End One.
