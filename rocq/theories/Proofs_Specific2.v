(** When the accretion rate itself declines. *)

From Coq Require Import Reals Lra List.
From Coquelicot Require Import Coquelicot.
From Verif Require Import Model_Num Model_Kernels Spec_Kernels Spec_Specific RealAux Proofs_Kernels Proofs_Kernels2 Proofs_Specific.
Local Open Scope R_scope.

Section Curve.
  Variables x0 c e l : R.
  Hypothesis Hle : l < e.

  (** The growth index is above the early index as long as this is above 1. *)
  Definition excess (x : R) := 35 / 10 * ((1 - sg c x) * (x0 - x)).

  Lemma index_excess x : dplaw x0 c e l x = e + (e - l) * sg c x * (excess x - 1).
  Proof. rewrite dplaw_eq. unfold excess. ring. Qed.

  Lemma excess_falls x y : x <= y -> y <= x0 -> excess y <= excess x.
  Proof.
    intros [L| ->] H; [|lra]. unfold excess, sg.
    pose proof (logistic_lt (35 / 10 * (x - c)) (35 / 10 * (y - c)) ltac:(lra)) as S.
    pose proof (logistic_bounds (35 / 10 * (x - c))). pose proof (logistic_bounds (35 / 10 * (y - c))).
    set (a := logistic (35 / 10 * (x - c))) in *. set (b := logistic (35 / 10 * (y - c))) in *.
    assert ((1 - b) * (x0 - y) <= (1 - a) * (x0 - x)) by (apply Rmult_le_compat; lra). lra.
  Qed.

  Lemma index_falls x y : x < y -> y <= x0 -> dplaw x0 c e l x <= e -> dplaw x0 c e l y < dplaw x0 c e l x.
  Proof.
    intros L H E. pose proof (logistic_bounds (35 / 10 * (x - c))) as B. fold (sg c x) in B.
    assert (X : excess x <= 1).
    { rewrite index_excess in E. assert (0 < (e - l) * sg c x) by (apply Rmult_lt_0_compat; lra).
      destruct (Rle_or_lt (excess x) 1) as [Q|Q]; [exact Q|exfalso].
      assert (0 < (e - l) * sg c x * (excess x - 1)) by (apply Rmult_lt_0_compat; lra). lra. }
    destruct (MVT_cor2 (dplaw x0 c e l) (ddplaw x0 c e l) x y L) as (z & Hz & Iz).
    { intros z _. apply is_derive_Reals, is_derive_dplaw. }
    pose proof (excess_falls x z ltac:(lra) ltac:(lra)) as F. unfold excess at 1 in F.
    pose proof (logistic_bounds (35 / 10 * (z - c))) as Z. fold (sg c z) in Z.
    assert (N : ddplaw x0 c e l z < 0).
    { unfold ddplaw. set (s := sg c z) in *.
      assert (0 <= s * (x0 - z)) by (apply Rmult_le_pos; lra).
      assert (35 / 10 * (x0 - z) * (1 - 2 * s) - 2 < 0) by lra.
      assert (0 < (e - l) * (1 - s)) by (apply Rmult_lt_0_compat; lra).
      assert (0 < (e - l) * (1 - s) * (35 / 10 * s)) by (apply Rmult_lt_0_compat; lra).
      nra. }
    nra.
  Qed.
End Curve.

Lemma growth_index p lgt0 t : 0 < t -> t <= t_peak p ->
  t * specific_rate p lgt0 t = dplaw lgt0 (logtc p) (early_index p) (late_index p) (log10 t).
Proof. intros P L. rewrite specific_before by assumption. field. lra. Qed.

Lemma growth_index_falls p t0 t s : legal p -> 0 < t0 -> 0 < t -> t < s -> s <= t0 -> s <= t_peak p ->
  t * specific_rate p (log10 t0) t <= early_index p ->
  s * specific_rate p (log10 t0) s < t * specific_rate p (log10 t0) t.
Proof.
  intros H H0 P L L0 Lp. rewrite !growth_index by lra. intros E. unfold legal in H.
  apply index_falls; [lra|apply log10_lt; lra|apply log10_le; lra|exact E].
Qed.

Lemma rate_specific p lgt0 t : rate p lgt0 t = mass p lgt0 t * specific_rate p lgt0 t / 1000000000.
Proof. unfold specific_rate. assert (0 < mass p lgt0 t) by apply exp_pos. field. lra. Qed.

Lemma rate_declines p t0 t s : legal p -> 0 < t0 -> 0 < t -> t < s -> s <= t0 -> t <= t_peak p ->
  t * specific_rate p (log10 t0) t <= early_index p -> t * specific_rate p (log10 t0) t <= 1 ->
  rate p (log10 t0) s < rate p (log10 t0) t.
Proof.
  intros H H0 P L L0 Lp E E1.
  assert (A : 0 < t * specific_rate p (log10 t0) t).
  { rewrite growth_index by lra. unfold legal in H. apply (Rlt_trans _ (late_index p)); [lra|].
    apply dplaw_above; try lra. apply log10_le; lra. }
  assert (Pm : 0 < mass p (log10 t0) t) by apply exp_pos.
  destruct (Rlt_or_le (t_peak p) s) as [B|B].
  - rewrite (rate_after p (log10 t0) s B), rate_specific.
    assert (0 < specific_rate p (log10 t0) t) by (apply (Rmult_lt_reg_l t); lra).
    assert (0 < mass p (log10 t0) t * specific_rate p (log10 t0) t) by (apply Rmult_lt_0_compat; lra). lra.
  - pose proof (growth_index_falls p t0 t s H H0 P L L0 B E) as F. rewrite !rate_specific.
    assert (As : 0 < s * specific_rate p (log10 t0) s).
    { rewrite growth_index by lra. unfold legal in H. apply (Rlt_trans _ (late_index p)); [lra|].
      apply dplaw_above; try lra. apply log10_le; lra. }
    assert (X : log10 t < log10 s) by (apply log10_lt; lra).
    assert (M : mass p (log10 t0) s * / s < mass p (log10 t0) t * / t).
    { rewrite !mass_lnm by lra.
      assert (Q : forall u, 0 < u -> pow10 (lnm p t0 u) * / u = pow10 (lnm p t0 u - log10 u)).
      { intros u U. replace (/ u) with (/ pow10 (log10 u)) by (now rewrite pow10_log10). unfold pow10.
        replace ((lnm p t0 u - log10 u) * ln 10) with (lnm p t0 u * ln 10 + - (log10 u * ln 10)) by ring.
        now rewrite exp_plus, exp_Ropp. }
      rewrite !Q by lra. apply pow10_lt. unfold lnm.
      destruct (MVT_cor2 (plaw (log10 t0) (logm0 p) (logtc p) (early_index p) (late_index p))
        (dplaw (log10 t0) (logtc p) (early_index p) (late_index p)) (log10 t) (log10 s) X) as (z & Hz & Iz).
      { intros z _. apply is_derive_Reals, is_derive_plaw. }
      rewrite growth_index in E, E1 by lra. assert (log10 s <= log10 t0) by (apply log10_le; lra).
      unfold legal in H.
      pose proof (index_falls (log10 t0) (logtc p) (early_index p) (late_index p) ltac:(lra) (log10 t) z ltac:(lra) ltac:(lra) E) as G.
      assert (0 < (1 - dplaw (log10 t0) (logtc p) (early_index p) (late_index p) z) * (log10 s - log10 t)) by (apply Rmult_lt_0_compat; lra).
      lra. }
    assert (Pms : 0 < mass p (log10 t0) s) by apply exp_pos.
    assert (0 < / s) by (apply Rinv_0_lt_compat; lra).
    assert (0 < mass p (log10 t0) s * / s) by (apply Rmult_lt_0_compat; lra).
    assert (K : mass p (log10 t0) s * / s * (s * specific_rate p (log10 t0) s) < mass p (log10 t0) t * / t * (t * specific_rate p (log10 t0) t)).
    { apply Rmult_gt_0_lt_compat; lra. }
    replace (mass p (log10 t0) s * / s * (s * specific_rate p (log10 t0) s)) with (mass p (log10 t0) s * specific_rate p (log10 t0) s) in K by (field; lra).
    replace (mass p (log10 t0) t * / t * (t * specific_rate p (log10 t0) t)) with (mass p (log10 t0) t * specific_rate p (log10 t0) t) in K by (field; lra).
    lra.
Qed.
