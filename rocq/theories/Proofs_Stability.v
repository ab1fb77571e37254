(** How much a mass history moves when its parameters do. *)

From Coq Require Import Reals Lra Lia List.
From Flocq Require Import Core.
From Verif Require Import Model_Num Model_Kernels Spec_Kernels RealAux Proofs_Kernels Proofs_Float3 Proofs_Float4.
Local Open Scope R_scope.

Section Index.
  Variables x0 m tc e l m' tc' e' l' : R.
  Hypothesis He : 0 <= e <= 10.
  Hypothesis Hl : 0 <= l <= 10.

  (** Another point in time, same parameters. *)
  Lemma plaw_shift x y D : Rabs (x - x0) <= D ->
    Rabs (plaw x0 m tc e l x - plaw x0 m tc e l y) <= (10 + 35 / 4 * D) * Rabs (x - y).
  Proof.
    intros HD. unfold plaw, idx.
    set (s := logistic (35 / 10 * (x - tc))). set (r := logistic (35 / 10 * (y - tc))).
    replace ((e + (l - e) * s) * (x - x0) + m - ((e + (l - e) * r) * (y - x0) + m))
      with ((e + (l - e) * r) * (x - y) + (l - e) * (s - r) * (x - x0)) by ring.
    eapply Rle_trans; [apply Rabs_triang|]. rewrite !Rabs_mult.
    pose proof (logistic_bounds (35 / 10 * (y - tc))) as Br. fold r in Br.
    pose proof (logistic_lip (35 / 10 * (x - tc)) (35 / 10 * (y - tc))) as L. fold s r in L.
    replace (35 / 10 * (x - tc) - 35 / 10 * (y - tc)) with (35 / 10 * (x - y)) in L by ring.
    rewrite Rabs_mult, (Rabs_right (35 / 10)) in L by lra.
    assert (A : Rabs (e + (l - e) * r) <= 10) by (apply Rabs_le; nra).
    assert (B : Rabs (l - e) <= 10) by (apply Rabs_le; lra).
    pose proof (Rabs_pos (x - y)) as P. pose proof (Rabs_pos (s - r)) as P2. pose proof (Rabs_pos (x - x0)) as P3.
    pose proof (Rabs_pos (l - e)) as P4.
    assert (Rabs (l - e) * Rabs (s - r) * Rabs (x - x0) <= 10 * (35 / 40 * Rabs (x - y)) * D).
    { apply Rmult_le_compat; [nra|lra| |exact HD]. apply Rmult_le_compat; lra. }
    assert (Rabs (e + (l - e) * r) * Rabs (x - y) <= 10 * Rabs (x - y)) by (apply Rmult_le_compat_r; lra).
    lra.
  Qed.

  (** Other parameters, same point in time. *)
  Lemma plaw_params y D d : Rabs (y - x0) <= D -> Rabs (e - e') <= d -> Rabs (l - l') <= d ->
    Rabs (plaw x0 m tc e l y - plaw x0 m' tc' e' l' y)
      <= Rabs (m - m') + D * d + 35 / 4 * D * Rabs (tc - tc').
  Proof.
    intros HD H1 H2. unfold plaw, idx.
    set (s := logistic (35 / 10 * (y - tc))). set (r := logistic (35 / 10 * (y - tc'))).
    replace ((e + (l - e) * s) * (y - x0) + m - ((e' + (l' - e') * r) * (y - x0) + m'))
      with (((e - e') * (1 - r) + (l - l') * r) * (y - x0) + (l - e) * (s - r) * (y - x0) + (m - m')) by ring.
    eapply Rle_trans; [apply Rabs_triang|]. pose proof (Rabs_triang (((e - e') * (1 - r) + (l - l') * r) * (y - x0))
      ((l - e) * (s - r) * (y - x0))) as T. rewrite !Rabs_mult in T.
    pose proof (logistic_bounds (35 / 10 * (y - tc'))) as Br. fold r in Br.
    pose proof (logistic_lip (35 / 10 * (y - tc)) (35 / 10 * (y - tc'))) as L. fold s r in L.
    replace (35 / 10 * (y - tc) - 35 / 10 * (y - tc')) with (- (35 / 10) * (tc - tc')) in L by ring.
    rewrite Rabs_mult, Rabs_Ropp, (Rabs_right (35 / 10)) in L by lra.
    assert (A : Rabs ((e - e') * (1 - r) + (l - l') * r) <= d).
    { apply Rabs_le_inv in H1. apply Rabs_le_inv in H2. apply Rabs_le. nra. }
    assert (B : Rabs (l - e) <= 10) by (apply Rabs_le; lra).
    pose proof (Rabs_pos (tc - tc')) as P. pose proof (Rabs_pos (s - r)) as P2. pose proof (Rabs_pos (y - x0)) as P3.
    pose proof (Rabs_pos (l - e)) as P4. pose proof (Rabs_pos ((e - e') * (1 - r) + (l - l') * r)) as P5.
    assert (Rabs (l - e) * Rabs (s - r) * Rabs (y - x0) <= 10 * (35 / 40 * Rabs (tc - tc')) * D).
    { apply Rmult_le_compat; [nra|lra| |exact HD]. apply Rmult_le_compat; lra. }
    assert (Rabs ((e - e') * (1 - r) + (l - l') * r) * Rabs (y - x0) <= d * D) by (apply Rmult_le_compat; lra).
    lra.
  Qed.
End Index.

Lemma log10_Rmin_lip t a b : 0 < t -> 0 < a -> 0 < b ->
  Rabs (log10 (Rmin t a) - log10 (Rmin t b)) <= Rabs (log10 a - log10 b).
Proof.
  assert (W : forall t a b, 0 < t -> 0 < a -> a <= b ->
    0 <= log10 (Rmin t b) - log10 (Rmin t a) <= log10 b - log10 a).
  { clear. intros t a b Ht Ha Hab. pose proof (log10_le a b Ha Hab) as L.
    destruct (Rle_or_lt t a) as [H|H].
    - rewrite !Rmin_left by lra. lra.
    - rewrite (Rmin_right t a) by lra. destruct (Rle_or_lt t b) as [H'|H'].
      + rewrite Rmin_left by lra. pose proof (log10_le a t Ha ltac:(lra)). pose proof (log10_le t b Ht H'). lra.
      + rewrite Rmin_right by lra. lra. }
  intros Ht Ha Hb. destruct (Rle_or_lt a b) as [H|H].
  - pose proof (W t a b Ht Ha H). rewrite !Rabs_left1; lra.
  - pose proof (W t b a Ht Hb ltac:(lra)). rewrite !Rabs_pos_eq; lra.
Qed.

(** The whole history. *)
Lemma history_stable p q t lgt0 D d :
  0 <= early_index p <= 10 -> 0 <= late_index p <= 10 -> 0 < t -> 0 < t_peak p -> 0 < t_peak q ->
  Rabs (log10 (Rmin t (t_peak p)) - lgt0) <= D -> Rabs (log10 (Rmin t (t_peak q)) - lgt0) <= D ->
  Rabs (early_index p - early_index q) <= d -> Rabs (late_index p - late_index q) <= d ->
  Rabs (logmh_at_t_obs p t lgt0 - logmh_at_t_obs q t lgt0) <=
    Rabs (logm0 p - logm0 q) + D * d + 35 / 4 * D * Rabs (logtc p - logtc q) +
    (10 + 35 / 4 * D) * Rabs (log10 (t_peak p) - log10 (t_peak q)).
Proof.
  intros He Hl Ht Hp Hq HD HD' H1 H2. unfold logmh_at_t_obs. rewrite !log_mah_kern_min, !log_mah_noq_R.
  set (x := log10 (Rmin t (t_peak p))) in *. set (y := log10 (Rmin t (t_peak q))) in *.
  pose proof (plaw_shift lgt0 (logm0 p) (logtc p) (early_index p) (late_index p) He Hl x y D HD) as A.
  pose proof (plaw_params lgt0 (logm0 p) (logtc p) (early_index p) (late_index p) (logm0 q) (logtc q)
    (early_index q) (late_index q) He Hl y D d HD' H1 H2) as B.
  pose proof (log10_Rmin_lip t (t_peak p) (t_peak q) Ht Hp Hq) as C. fold x y in C.
  assert (E : (10 + 35 / 4 * D) * Rabs (x - y) <= (10 + 35 / 4 * D) * Rabs (log10 (t_peak p) - log10 (t_peak q))).
  { apply Rmult_le_compat_l; [|exact C]. pose proof (Rabs_pos (x - lgt0)). lra. }
  eapply Rle_trans; [|apply Rplus_le_compat; [exact B|exact E]].
  eapply Rle_trans; [|apply Rplus_le_compat_l; exact A].
  rewrite Rplus_comm.
  match goal with |- Rabs ?u <= Rabs ?v + Rabs ?w => replace u with (v + w) by ring end. apply Rabs_triang.
Qed.

(** A relative error of a time in its logarithm. *)
Lemma log10_rel a b r : 0 < a -> 0 <= r <= / 100 -> Rabs (a - b) <= r * a ->
  0 < b /\ Rabs (log10 a - log10 b) <= 51 / 100 * r.
Proof.
  intros Ha Hr H. apply Rabs_le_inv in H.
  assert (Hb : 0 < b) by nra. split; [exact Hb|].
  pose proof ln10_size as L10. unfold log10.
  replace (ln a / ln 10 - ln b / ln 10) with ((ln a - ln b) * / ln 10) by (field; lra).
  rewrite Rabs_mult, (Rabs_right (/ ln 10)) by (left; apply Rinv_0_lt_compat; lra).
  assert (I : 0 < / ln 10 <= / 2) by (split; [apply Rinv_0_lt_compat; lra|apply Rinv_le_contravar; lra]).
  assert (Q : Rabs (ln a - ln b) <= 102 / 100 * r).
  { assert (LU : forall z, 0 < z -> ln z <= z - 1).
    { intros z Hz. pose proof (exp_ineq1_le (ln z)) as E. rewrite exp_ln in E by exact Hz. lra. }
    assert (Pab : 0 < a * / b) by (apply Rmult_lt_0_compat; [lra|now apply Rinv_0_lt_compat]).
    assert (Pba : 0 < b * / a) by (apply Rmult_lt_0_compat; [lra|now apply Rinv_0_lt_compat]).
    pose proof (LU (a * / b) Pab) as U1. pose proof (LU (b * / a) Pba) as U2.
    rewrite ln_mult, ln_Rinv in U1 by auto using Rinv_0_lt_compat.
    rewrite ln_mult, ln_Rinv in U2 by auto using Rinv_0_lt_compat.
    assert (X1 : a * / b - 1 <= 102 / 100 * r).
    { apply Rmult_le_reg_r with b; [lra|]. replace ((a * / b - 1) * b) with (a - b) by (field; lra). nra. }
    assert (X2 : b * / a - 1 <= 102 / 100 * r).
    { apply Rmult_le_reg_r with a; [lra|]. replace ((b * / a - 1) * a) with (b - a) by (field; lra). nra. }
    apply Rabs_le. lra. }
  apply Rle_trans with (102 / 100 * r * / 2); [|lra].
  apply Rmult_le_compat; auto using Rabs_pos; lra.
Qed.
