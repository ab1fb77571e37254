(** Correlation and covariance conversions. *)

From Coq Require Import Reals Lra Lia List Arith.
From Verif Require Import Model_Num RealAux Model_Base Model_Kernels Model_Utils Spec_Utils.
Import ListNotations.
Local Open Scope R_scope.

Lemma sum_below_S n f : sum_below (S n) f = sum_below n f + f n.
Proof.
  unfold sum_below. rewrite seq_S, map_app. cbn [map Nat.add].
  generalize (map f (seq 0 n)). intros l. induction l as [|a l IH]; cbn in *; [lra|].
  unfold Rsum in *. rewrite IH. lra.
Qed.

Lemma sum_below_ext n f g : (forall i, (i < n)%nat -> f i = g i) -> sum_below n f = sum_below n g.
Proof.
  induction n as [|n IH]; intros H; [reflexivity|].
  rewrite !sum_below_S, IH, H by (auto with arith). reflexivity.
Qed.

Lemma sum_below_zero n f : (forall i, (i < n)%nat -> f i = 0) -> sum_below n f = 0.
Proof.
  induction n as [|n IH]; intros H; [reflexivity|].
  rewrite sum_below_S, IH, H by auto with arith. lra.
Qed.

Lemma sum_below_single n f i : (i < n)%nat -> (forall k, (k < n)%nat -> k <> i -> f k = 0) ->
  sum_below n f = f i.
Proof.
  induction n as [|n IH]; intros Hi H; [lia|].
  rewrite sum_below_S. destruct (Nat.eq_dec i n) as [->|Hn].
  - rewrite sum_below_zero; [lra|]. intros k Hk. apply H; lia.
  - rewrite IH by (try lia; intros; apply H; lia). rewrite (H n); [lra|lia|lia].
Qed.

Lemma sum_below_scal n f c : sum_below n (fun i => c * f i) = c * sum_below n f.
Proof.
  induction n as [|n IH]; [unfold sum_below; cbn; lra|]. rewrite !sum_below_S, IH. lra.
Qed.

Lemma cov_entry n corr e i j : (i < n)%nat -> (j < n)%nat ->
  covariance_from_correlation n corr e i j = e i * corr i j * e j.
Proof.
  intros Hi Hj. unfold covariance_from_correlation, mdot.
  change (@sumn) with (@sum_below).
  rewrite (sum_below_single n _ j Hj).
  - rewrite (sum_below_single n _ i Hi).
    + unfold mdiag. rewrite !Nat.eqb_refl. reflexivity.
    + intros k Hk Hn. unfold mdiag. destruct (Nat.eqb_spec i k); [congruence|lra].
  - intros k Hk Hn. unfold mdiag at 2. destruct (Nat.eqb_spec k j); [congruence|lra].
Qed.

Lemma corr_cov_roundtrip n corr e i j :
  (forall k, (k < n)%nat -> corr k k = 1) -> (forall k, (k < n)%nat -> 0 < e k) ->
  (i < n)%nat -> (j < n)%nat ->
  correlation_from_covariance (covariance_from_correlation n corr e) i j = corr i j.
Proof.
  intros H1 He Hi Hj. unfold correlation_from_covariance.
  rewrite !cov_entry by auto. rewrite !H1 by auto.
  assert (HS : forall k, (k < n)%nat -> sqrt (e k * 1 * e k) = e k).
  { intros k Hk. rewrite Rmult_1_r. apply sqrt_square. left; auto. }
  rewrite !HS by auto. pose proof (He i Hi). pose proof (He j Hj).
  unfold jwhere, Reqb. destruct (Req_EM_T _ 0) as [E|E].
  - assert (corr i j = 0); [|lra].
    apply (Rmult_eq_reg_l (e i * e j)); [|nra]. lra.
  - field. lra.
Qed.

Lemma cov_corr_roundtrip n cov i j :
  (forall k, (k < n)%nat -> 0 < cov k k) -> (i < n)%nat -> (j < n)%nat ->
  covariance_from_correlation n (correlation_from_covariance cov) (fun k => sqrt (cov k k)) i j
  = cov i j.
Proof.
  intros Hd Hi Hj. rewrite cov_entry by auto. unfold correlation_from_covariance, jwhere, Reqb.
  pose proof (sqrt_lt_R0 _ (Hd i Hi)). pose proof (sqrt_lt_R0 _ (Hd j Hj)).
  destruct (Req_EM_T (cov i j) 0) as [E|E]; [lra|]. field. lra.
Qed.

Lemma corr_diag n cov i : (forall k, (k < n)%nat -> 0 < cov k k) -> (i < n)%nat ->
  correlation_from_covariance cov i i = 1.
Proof.
  intros Hd Hi. unfold correlation_from_covariance, jwhere, Reqb. specialize (Hd i Hi).
  destruct (Req_EM_T (cov i i) 0); [lra|]. rewrite sqrt_sqrt by lra. field. lra.
Qed.

Lemma corr_symmetric cov i j : cov i j = cov j i ->
  correlation_from_covariance cov i j = correlation_from_covariance cov j i.
Proof.
  intros H. unfold correlation_from_covariance. rewrite H. now rewrite (Rmult_comm (sqrt (cov i i))).
Qed.

Lemma quad_form_cov n corr e v :
  quad_form n (covariance_from_correlation n corr e) v = quad_form n corr (fun i => e i * v i).
Proof.
  unfold quad_form. apply sum_below_ext. intros i Hi. apply sum_below_ext. intros j Hj.
  rewrite cov_entry by auto. ring.
Qed.

Lemma cov_psd n corr e : psd n corr -> psd n (covariance_from_correlation n corr e).
Proof. intros H v. rewrite quad_form_cov. apply H. Qed.

Lemma cov_posdef n corr e : (forall k, (k < n)%nat -> e k <> 0) -> posdef n corr ->
  posdef n (covariance_from_correlation n corr e).
Proof.
  intros He H v (i & Hi & Hv). rewrite quad_form_cov. apply H.
  exists i. split; [exact Hi|]. apply Rmult_integral_contrapositive_currified; auto.
Qed.
