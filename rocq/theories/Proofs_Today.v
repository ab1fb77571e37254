(** An early history determines today. *)

From Coq Require Import Reals Lra List.
From Verif Require Import Model_Num Model_Kernels Spec_Kernels RealAux Proofs_Kernels Proofs_Identify.
Local Open Scope R_scope.

Lemma exp_tail y : 1 <= y -> exp (- (35 / 10 * y)) <= / (y * y).
Proof.
  intros Hy. rewrite exp_Ropp. apply Rinv_le_contravar; [nra|].
  pose proof (exp_ineq1_le y) as L. apply Rle_trans with (exp (y + y)).
  - rewrite exp_plus. nra.
  - left. apply exp_increasing. lra.
Qed.

Lemma far y x0 : 1 <= y -> Rabs (- y - x0) <= (1 + Rabs x0) * y.
Proof.
  intros Hy. unfold Rminus. eapply Rle_trans; [apply Rabs_triang|]. rewrite !Rabs_Ropp, (Rabs_right y) by lra.
  pose proof (Rabs_pos x0). nra.
Qed.

Section Bent.
  Variables x0 c e l : R.
  Hypothesis Hle : l < e.

  (** How far the history is from a straight line at early times. *)
  Lemma two_bent y : 1 <= y -> Rabs ((l - e) * logistic (35 / 10 * (- y - c)) * (- y - x0)) <=
    (e - l) * exp (- (35 / 10) * c) * (1 + Rabs x0) / y.
  Proof.
    intros Hy. pose proof (tail_bound c y Hy) as T. pose proof (logistic_bounds (35 / 10 * (- y - c))) as Bs.
    set (s := logistic (35 / 10 * (- y - c))) in *. set (w := exp (- (35 / 10) * c)) in *.
    rewrite Rabs_mult. pose proof (far y x0 Hy) as F.
    assert (A : Rabs ((l - e) * s) <= (e - l) * (w * / (y * y))).
    { replace ((l - e) * s) with (- ((e - l) * s)) by ring. rewrite Rabs_Ropp, Rabs_right.
      - apply Rmult_le_compat_l; lra.
      - apply Rle_ge, Rmult_le_pos; lra. }
    apply Rle_trans with ((e - l) * (w * / (y * y)) * ((1 + Rabs x0) * y)).
    - apply Rmult_le_compat; auto using Rabs_pos.
    - right. field. lra.
  Qed.
End Bent.

Section Today.
  Variables x0 m c e l x0' m' c' e' l' X : R.
  Hypothesis Hle : l < e.
  Hypothesis Hle' : l' < e'.
  Hypothesis Same : forall x, x <= X -> plaw x0 m c e l x = plaw x0' m' c' e' l' x.

  Lemma today_line : e = e' /\ m - e * x0 = m' - e * x0'.
  Proof.
    destruct (line_zero (e' - e) (e' * x0' - m' - (e * x0 - m))
      ((e - l) * exp (- (35 / 10) * c) * (1 + Rabs x0) + (e' - l') * exp (- (35 / 10) * c') * (1 + Rabs x0')) (- X)) as [E1 E2].
    - intros y HY Hy. pose proof (Same (- y) ltac:(lra)) as S. unfold plaw, idx in S.
      pose proof (two_bent x0 c e l Hle y Hy) as T. pose proof (two_bent x0' c' e' l' Hle' y Hy) as T'.
      set (s := logistic (35 / 10 * (- y - c))) in *. set (s' := logistic (35 / 10 * (- y - c'))) in *.
      match goal with |- Rabs ?z <= _ => replace z with ((l' - e') * s' * (- y - x0') + - ((l - e) * s * (- y - x0))) by lra end.
      eapply Rle_trans; [apply Rabs_triang|]. rewrite Rabs_Ropp. rewrite Rdiv_plus_distr. lra.
    - assert (Ee : e = e') by lra. split; [exact Ee|]. rewrite <- Ee in E2. lra.
  Qed.

  Lemma today_same : x0 = x0'.
  Proof.
    destruct today_line as [E M]. set (a := exp (35 / 10 * c)). set (b := exp (35 / 10 * c')).
    assert (Pa : 0 < a) by apply exp_pos. assert (Pb : 0 < b) by apply exp_pos.
    destruct (line_zero ((l' - e) * a - (l - e) * b) ((l' - e) * a * x0' - (l - e) * b * x0)
      (Rabs (l - e) * (1 + Rabs x0) + Rabs (l' - e) * (1 + Rabs x0')) (- X)) as [E1 E2].
    - intros y HY Hy. pose proof (Same (- y) ltac:(lra)) as S. unfold plaw, idx in S. rewrite <- E in S.
      assert (S2 : (l - e) * logistic (35 / 10 * (- y - c)) * (- y - x0) = (l' - e) * logistic (35 / 10 * (- y - c')) * (- y - x0')) by lra.
      clear S. unfold logistic in S2.
      replace (- (35 / 10 * (- y - c))) with (35 / 10 * c + 35 / 10 * y) in S2 by ring.
      replace (- (35 / 10 * (- y - c'))) with (35 / 10 * c' + 35 / 10 * y) in S2 by ring.
      rewrite !exp_plus in S2. fold a b in S2. pose proof (exp_tail y Hy) as T. rewrite exp_Ropp in T.
      set (u := exp (35 / 10 * y)) in *. assert (Pu : 0 < u) by apply exp_pos.
      assert (Pau : 0 < a * u) by now apply Rmult_lt_0_compat. assert (Pbu : 0 < b * u) by now apply Rmult_lt_0_compat.
      assert (K : (l - e) * (- y - x0) * (1 + b * u) = (l' - e) * (- y - x0') * (1 + a * u)).
      { transitivity ((l - e) * / (1 + a * u) * (- y - x0) * (1 + a * u) * (1 + b * u)); [field; lra|]. rewrite S2. field. lra. }
      match goal with |- Rabs ?z <= _ => replace z with (((l' - e) * (- y - x0') + - ((l - e) * (- y - x0))) * / u) end.
      2:{ apply Rmult_eq_reg_r with u; [|lra]. rewrite Rmult_assoc, Rinv_l by lra. lra. }
      assert (Iu : 0 < / u) by now apply Rinv_0_lt_compat.
      rewrite Rabs_mult, (Rabs_right (/ u)) by lra.
      apply Rle_trans with ((Rabs (l - e) * (1 + Rabs x0) + Rabs (l' - e) * (1 + Rabs x0')) * y * / (y * y)).
      + apply Rmult_le_compat; [apply Rabs_pos|lra| |exact T].
        eapply Rle_trans; [apply Rabs_triang|]. rewrite Rabs_Ropp, !Rabs_mult.
        pose proof (far y x0 Hy). pose proof (far y x0' Hy).
        assert (Rabs (l - e) * Rabs (- y - x0) <= Rabs (l - e) * ((1 + Rabs x0) * y)) by (apply Rmult_le_compat_l; [apply Rabs_pos|lra]).
        assert (Rabs (l' - e) * Rabs (- y - x0') <= Rabs (l' - e) * ((1 + Rabs x0') * y)) by (apply Rmult_le_compat_l; [apply Rabs_pos|lra]).
        lra.
      + right. field. lra.
    - assert (Q : (l' - e) * a = (l - e) * b) by lra. rewrite Q in E2.
      assert (N : (l - e) * b < 0) by nra.
      apply Rmult_eq_reg_l with ((l - e) * b); lra.
  Qed.
End Today.

(** Histories that agree on an initial stretch were taken with the same today. *)
Lemma today_determined p q lgt0 lgt0' T : legal p -> legal q -> 0 < T ->
  (forall t, 0 < t <= T -> logmh_at_t_obs p t lgt0 = logmh_at_t_obs q t lgt0') -> lgt0 = lgt0'.
Proof.
  intros Lp Lq PT H. set (T' := Rmin T (Rmin (t_peak p) (t_peak q))). unfold legal in Lp, Lq.
  assert (PT' : 0 < T') by (unfold T'; repeat apply Rmin_glb_lt; lra).
  assert (B : T' <= T /\ T' <= t_peak p /\ T' <= t_peak q).
  { unfold T'. split; [apply Rmin_l|]. split; (eapply Rle_trans; [apply Rmin_r|]); [apply Rmin_l|apply Rmin_r]. }
  apply (today_same lgt0 (logm0 p) (logtc p) (early_index p) (late_index p)
    lgt0' (logm0 q) (logtc q) (early_index q) (late_index q) (log10 T')); try lra.
  intros x Hx. pose proof (pow10_pos x) as Px.
  assert (Hp : pow10 x <= T').
  { rewrite <- (pow10_log10 T' PT'). now apply pow10_le. }
  pose proof (H (pow10 x) ltac:(lra)) as E. rewrite !kern_at, log10_pow10 in E by lra. exact E.
Qed.
