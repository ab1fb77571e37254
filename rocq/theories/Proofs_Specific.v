(** Proofs about specific accretion rates. *)

From Coq Require Import Reals Lra Lia List.
From Coquelicot Require Import Coquelicot.
From Verif Require Import Model_Num Model_Kernels Spec_Kernels Spec_Specific RealAux Proofs_Kernels Proofs_Kernels2.
Local Open Scope R_scope.

Lemma derive_eq (f : R -> R) (x d d' : R) : is_derive f x d -> @eq R d d' -> is_derive f x d'.
Proof. now intros H <-. Qed.

(** The part of the sigmoid before its mid-point, weighted by the distance from it. *)
Lemma logistic_tail y : 0 <= y -> 35 / 10 * (logistic (35 / 10 * - y) * y) <= 1.
Proof.
  intros Hy. unfold logistic.
  replace (- (35 / 10 * - y)) with (35 / 10 * y) by ring.
  pose proof (exp_ineq1_le (35 / 10 * y)) as E.
  assert (P : 0 < 1 + exp (35 / 10 * y)) by (pose proof (exp_pos (35 / 10 * y)); lra).
  apply (Rmult_le_reg_r (1 + exp (35 / 10 * y))); [exact P|].
  replace (35 / 10 * (/ (1 + exp (35 / 10 * y)) * y) * (1 + exp (35 / 10 * y))) with (35 / 10 * y)
    by (field; lra). lra.
Qed.

Section Curve.
  Variables x0 c e l : R.
  Hypothesis Hl : 0 < l.
  Hypothesis Hle : l < e.
  Hypothesis HD : x0 - c <= 3.

  Definition sg (x : R) := logistic (35 / 10 * (x - c)).

  Definition ddplaw (x : R) :=
    (e - l) * (1 - sg x) * (35 / 10 * sg x) * (35 / 10 * (x0 - x) * (1 - 2 * sg x) - 2).

  Lemma is_derive_dplaw x : is_derive (dplaw x0 c e l) x (ddplaw x).
  Proof.
    assert (S : is_derive sg x (35 / 10 * (sg x * (1 - sg x)))).
    { unfold sg. evar (d : R). assert (H : is_derive (fun x => logistic (35 / 10 * (x - c))) x d).
      { subst d. auto_derive.
        - exists (logistic (35 / 10 * (x - c)) * (1 - logistic (35 / 10 * (x - c)))). apply is_derive_logistic.
        - reflexivity. }
      subst d. rewrite (is_derive_unique _ _ _ (is_derive_logistic _)) in H.
      apply (derive_eq _ _ _ _ H). unfold Rminus. ring. }
    unfold dplaw. fold (sg x).
    assert (H : is_derive (fun x => l + (e - l) * (1 - sg x) * (1 - 35 / 10 * sg x * (x - x0))) x
      ((e - l) * ((- (35 / 10 * (sg x * (1 - sg x)))) * (1 - 35 / 10 * sg x * (x - x0)) +
        (1 - sg x) * (- (35 / 10 * ((35 / 10 * (sg x * (1 - sg x))) * (x - x0) + sg x)))))).
    { evar (d : R). assert (H : is_derive (fun x => l + (e - l) * (1 - sg x) * (1 - 35 / 10 * sg x * (x - x0))) x d).
      { subst d. auto_derive.
        - split; [eexists; exact S|]. split; [eexists; exact S|exact I].
        - reflexivity. }
      subst d. match type of H with context [Derive ?f x] => rewrite (is_derive_unique f x _ S) in H end.
      apply (derive_eq _ _ _ _ H). ring. }
    apply (derive_eq _ _ _ _ H). unfold ddplaw. ring.
  Qed.

  Lemma sg_bounds x : 0 < sg x < 1.
  Proof. apply logistic_bounds. Qed.

  Lemma tail_bound x : x <= x0 -> 35 / 10 * (sg x * (x0 - x)) <= 105 / 10 * sg x + 1.
  Proof.
    intros Hx. pose proof (sg_bounds x) as B. destruct (Rle_or_lt c x) as [L|L].
    - assert (sg x * (x0 - x) <= sg x * 3) by (apply Rmult_le_compat_l; lra). lra.
    - pose proof (logistic_tail (c - x) ltac:(lra)) as T.
      replace (- (c - x)) with (x - c) in T by ring. fold (sg x) in T.
      assert (sg x * (x0 - c) <= sg x * 3) by (apply Rmult_le_compat_l; lra).
      replace (sg x * (x0 - x)) with (sg x * (x0 - c) + sg x * (c - x)) by ring. lra.
  Qed.

  Lemma dplaw_eq x : dplaw x0 c e l x = l + (e - l) * (1 - sg x) * (1 + 35 / 10 * (sg x * (x0 - x))).
  Proof. unfold dplaw. fold (sg x). ring. Qed.

  Lemma dplaw_above x : x <= x0 -> l < dplaw x0 c e l x.
  Proof.
    intros Hx. rewrite dplaw_eq. pose proof (sg_bounds x) as B.
    assert (0 <= sg x * (x0 - x)) by (apply Rmult_le_pos; lra).
    assert (0 < (e - l) * (1 - sg x)) by (apply Rmult_lt_0_compat; lra).
    assert (0 < (e - l) * (1 - sg x) * (1 + 35 / 10 * (sg x * (x0 - x)))) by (apply Rmult_lt_0_compat; lra). lra.
  Qed.

  Lemma dplaw_below x : x <= x0 -> dplaw x0 c e l x < l + 15 / 4 * (e - l).
  Proof.
    intros Hx. rewrite dplaw_eq. pose proof (sg_bounds x) as B. pose proof (tail_bound x Hx) as T.
    set (s := sg x) in *. set (w := 35 / 10 * (s * (x0 - x))) in *.
    assert (Q : (1 - s) * (1 + w) < 15 / 4).
    { assert ((1 - s) * (1 + w) <= (1 - s) * (2 + 105 / 10 * s)) by (apply Rmult_le_compat_l; lra).
      pose proof (pow2_ge_0 (s - 4 / 10)). nra. }
    replace ((e - l) * (1 - s) * (1 + w)) with ((e - l) * ((1 - s) * (1 + w))) by ring.
    assert ((e - l) * ((1 - s) * (1 + w)) < (e - l) * (15 / 4)) by (apply Rmult_lt_compat_l; lra). lra.
  Qed.

  (** The growth index rises less steeply than the time. *)
  Lemma ddplaw_small x : x <= x0 -> ddplaw x < ln 10 * dplaw x0 c e l x.
  Proof.
    intros Hx. rewrite dplaw_eq. unfold ddplaw. pose proof (sg_bounds x) as B. pose proof (tail_bound x Hx) as T.
    pose proof ln10_bounds as L.
    set (s := sg x) in *. set (w := 35 / 10 * (s * (x0 - x))) in *.
    assert (W : 0 <= w) by (unfold w; assert (0 <= s * (x0 - x)) by (apply Rmult_le_pos; lra); lra).
    replace ((e - l) * (1 - s) * (35 / 10 * s) * (35 / 10 * (x0 - x) * (1 - 2 * s) - 2)) with
      ((e - l) * (1 - s) * (35 / 10 * (1 - 2 * s) * w - 7 * s)) by (unfold w; field).
    assert (A : 0 < (e - l) * (1 - s)) by (apply Rmult_lt_0_compat; lra).
    assert (K : 35 / 10 * (1 - 2 * s) * w - 7 * s < 2 * (1 + w)).
    { destruct (Rle_or_lt (15 / 10 - 7 * s) 0) as [N|N].
      - assert ((15 / 10 - 7 * s) * w <= 0) by nra. nra.
      - assert (M : (15 / 10 - 7 * s) * w <= (15 / 10 - 7 * s) * (105 / 10 * s + 1)) by (apply Rmult_le_compat_l; lra).
        pose proof (pow2_ge_0 (s - 1 / 84)). nra. }
    assert (K2 : (e - l) * (1 - s) * (35 / 10 * (1 - 2 * s) * w - 7 * s) < (e - l) * (1 - s) * (2 * (1 + w)))
      by (apply Rmult_lt_compat_l; lra).
    assert (0 < (e - l) * (1 - s) * (1 + w)) by (apply Rmult_lt_0_compat; lra).
    assert (2 * ((e - l) * (1 - s) * (1 + w)) <= ln 10 * ((e - l) * (1 - s) * (1 + w))) by (apply Rmult_le_compat_r; lra).
    assert (0 < ln 10 * l) by (apply Rmult_lt_0_compat; lra).
    nra.
  Qed.

  Lemma index_over_time_decreasing x y : x < y -> y <= x0 ->
    dplaw x0 c e l y * / pow10 y < dplaw x0 c e l x * / pow10 x.
  Proof.
    intros L Hy.
    set (g := fun x => dplaw x0 c e l x * exp (- (x * ln 10))).
    assert (G : forall z, g z = dplaw x0 c e l z * / pow10 z).
    { intros z. unfold g, pow10. now rewrite exp_Ropp. }
    assert (D : forall z, is_derive g z ((ddplaw z - ln 10 * dplaw x0 c e l z) * exp (- (z * ln 10)))).
    { intros z. evar (d : R).
      assert (H : is_derive g z d).
      { subst d. apply (is_derive_mult (dplaw x0 c e l) (fun x => exp (- (x * ln 10))) z (ddplaw z) (- ln 10 * exp (- (z * ln 10)))).
        - apply is_derive_dplaw.
        - auto_derive; [exact I|]. ring.
        - intros; apply Rmult_comm. }
      subst d. apply (derive_eq _ _ _ _ H).
      unfold plus, mult; cbn. ring. }
    destruct (MVT_cor2 g (fun z => (ddplaw z - ln 10 * dplaw x0 c e l z) * exp (- (z * ln 10))) x y L) as (z & Hz & Iz).
    { intros z _. apply is_derive_Reals, D. }
    rewrite <- !G. pose proof (ddplaw_small z ltac:(lra)) as N. pose proof (exp_pos (- (z * ln 10))) as P.
    assert (0 < (ln 10 * dplaw x0 c e l z - ddplaw z) * exp (- (z * ln 10))) by (apply Rmult_lt_0_compat; lra).
    assert (0 < ((ln 10 * dplaw x0 c e l z - ddplaw z) * exp (- (z * ln 10))) * (y - x)) by (apply Rmult_lt_0_compat; lra).
    nra.
  Qed.
End Curve.

Lemma specific_before p lgt0 t : 0 < t -> t <= t_peak p ->
  specific_rate p lgt0 t = dplaw lgt0 (logtc p) (early_index p) (late_index p) (log10 t) / t.
Proof.
  intros P L. unfold specific_rate. rewrite rate_before, mass_before, dmhdt_noq_grad_R by assumption.
  assert (0 < mah_noq_kern p t lgt0).
  { rewrite <- (mass_before p lgt0 t L). apply exp_pos. }
  field. split; lra.
Qed.

Lemma specific_after p lgt0 t : t_peak p < t -> specific_rate p lgt0 t = 0.
Proof. intros L. unfold specific_rate. rewrite rate_after by assumption. unfold Rdiv. ring. Qed.

Lemma reach p t0 : legal p -> 0 < t0 <= 100 -> log10 t0 - logtc p <= 3.
Proof.
  intros H H0. unfold legal in H. assert (log10 t0 <= log10 100) by (apply log10_le; lra).
  assert (E : log10 100 = 2).
  { unfold log10. replace 100 with (10 * 10) by lra. rewrite ln_mult by lra. pose proof ln10_pos. field. lra. }
  lra.
Qed.

Lemma specific_declines p t0 t s : legal p -> 0 < t0 <= 100 -> 0 < t -> t < s -> s <= t0 -> t <= t_peak p ->
  specific_rate p (log10 t0) s < specific_rate p (log10 t0) t.
Proof.
  intros H H0 P L Ls Lt. pose proof (reach p t0 H H0) as R. unfold legal in H.
  assert (Q : forall u, 0 < u -> u <= t0 -> u <= t_peak p ->
    specific_rate p (log10 t0) u = dplaw (log10 t0) (logtc p) (early_index p) (late_index p) (log10 u) * / pow10 (log10 u)).
  { intros u U _ U'. rewrite specific_before by assumption. now rewrite pow10_log10. }
  rewrite (Q t) by lra. destruct (Rle_or_lt s (t_peak p)) as [B|B].
  - rewrite (Q s) by lra. apply index_over_time_decreasing; try lra; [apply log10_lt; lra|apply log10_le; lra].
  - rewrite specific_after by exact B. apply Rmult_lt_0_compat; [|apply Rinv_0_lt_compat, pow10_pos].
    apply (Rlt_trans _ (late_index p)); [lra|]. apply dplaw_above; try lra. apply log10_le; lra.
Qed.

(** The logarithm of the mass, before the peak. *)
Definition lnm (p : DiffmahParams R) (t0 t : R) : R :=
  plaw (log10 t0) (logm0 p) (logtc p) (early_index p) (late_index p) (log10 t).

Lemma is_derive_lnm p t0 t : 0 < t -> t <= t_peak p -> is_derive (lnm p t0) t (specific_rate p (log10 t0) t / ln 10).
Proof.
  intros P L. rewrite specific_before by assumption.
  eapply derive_eq; [exact (is_derive_comp (plaw (log10 t0) (logm0 p) (logtc p) (early_index p) (late_index p))
    log10 t _ _ (is_derive_plaw _ _ _ _ _ _) (is_derive_log10 t P))|].
  unfold scal; cbn. unfold mult; cbn. pose proof ln10_pos. field. lra.
Qed.

Lemma mass_lnm p t0 t : t <= t_peak p -> mass p (log10 t0) t = pow10 (lnm p t0 t).
Proof. intros L. rewrite mass_before by exact L. unfold mah_noq_kern. cbn [npow10 Num_R]. now rewrite log_mah_noq_R. Qed.

Lemma growth_slows p t0 t s d : legal p -> 0 < t0 <= 100 -> 0 < t -> t < s -> 0 < d -> s + d <= t0 -> s + d <= t_peak p ->
  mass p (log10 t0) (s + d) / mass p (log10 t0) s < mass p (log10 t0) (t + d) / mass p (log10 t0) t.
Proof.
  intros H H0 P L D L0 Lp. rewrite !mass_lnm by lra.
  assert (Q : forall u, pow10 (lnm p t0 (u + d)) / pow10 (lnm p t0 u) = pow10 (lnm p t0 (u + d) - lnm p t0 u)).
  { intros u. unfold pow10. replace ((lnm p t0 (u + d) - lnm p t0 u) * ln 10) with (lnm p t0 (u + d) * ln 10 + - (lnm p t0 u * ln 10)) by ring.
    now rewrite exp_plus, exp_Ropp. }
  rewrite !Q. apply pow10_lt.
  set (h := fun u => lnm p t0 (u + d) - lnm p t0 u).
  assert (DH : forall u, t <= u <= s -> is_derive h u (specific_rate p (log10 t0) (u + d) / ln 10 - specific_rate p (log10 t0) u / ln 10)).
  { intros u U. unfold h. apply (is_derive_minus (fun u => lnm p t0 (u + d)) (lnm p t0)).
    - eapply derive_eq; [apply (is_derive_comp (lnm p t0) (fun u => u + d) u (specific_rate p (log10 t0) (u + d) / ln 10) 1)|].
      + apply is_derive_lnm; lra.
      + auto_derive; [exact I|ring].
      + unfold scal; cbn. unfold mult; cbn. ring.
    - apply is_derive_lnm; lra. }
  destruct (MVT_cor2 h (fun u => specific_rate p (log10 t0) (u + d) / ln 10 - specific_rate p (log10 t0) u / ln 10) t s L) as (z & Hz & Iz).
  { intros z Z. apply is_derive_Reals, DH, Z. }
  fold (h s). fold (h t).
  pose proof (specific_declines p t0 z (z + d) H H0 ltac:(lra) ltac:(lra) ltac:(lra) ltac:(lra)) as N.
  pose proof ln10_pos as LP.
  assert (0 < (specific_rate p (log10 t0) z - specific_rate p (log10 t0) (z + d)) / ln 10) by (apply Rdiv_lt_0_compat; lra).
  assert (0 < (specific_rate p (log10 t0) z - specific_rate p (log10 t0) (z + d)) / ln 10 * (s - t)) by (apply Rmult_lt_0_compat; lra).
  unfold Rdiv in *. nra.
Qed.
