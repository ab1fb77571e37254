(** The kernels at the extended reals: special values. *)

From Coq Require Import Reals Lra List.
From Verif Require Import Model_Num RealAux Model_Kernels Spec_Kernels Proofs_Kernels.
Import ListNotations.
Local Open Scope R_scope.

Ltac rcmp :=
  repeat match goal with
  | |- context [Rltb ?a ?b] => unfold Rltb at 1; destruct (Rlt_dec a b)
  | |- context [Reqb ?a ?b] => unfold Reqb at 1; destruct (Req_EM_T a b)
  end.

Lemma Rltb_t x y : x < y -> Rltb x y = true.
Proof. apply Rltb_true. Qed.
Lemma Rltb_f x y : y <= x -> Rltb x y = false.
Proof. apply Rltb_false. Qed.
Lemma Reqb_t x y : x = y -> Reqb x y = true.
Proof. apply Reqb_true. Qed.
Lemma Reqb_f x y : x <> y -> Reqb x y = false.
Proof. apply Reqb_false. Qed.

(** ** Inverse sigmoid on special values *)

Lemma x_inverse_sigmoid_in y x0 k lo hi :
  k <> 0 -> lo < y < hi ->
  inverse_sigmoid (Fin y) (Fin x0) (Fin k) (Fin lo) (Fin hi)
  = Fin (inverse_sigmoid y x0 k lo hi).
Proof.
  intros Hk [H1 H2]. unfold inverse_sigmoid. cbn -[Rdiv Rminus].
  unfold xsub; cbn -[Rdiv].
  rewrite (Reqb_f (y + - lo) 0) by lra. cbn -[Rdiv].
  assert (HP : 0 < (hi + - lo) / (y + - lo) + Ropp 1).
  { assert (1 < (hi + - lo) / (y + - lo)); [|lra].
    apply Rmult_lt_reg_r with (y + - lo); [lra|].
    unfold Rdiv. rewrite Rmult_assoc, Rinv_l; lra. }
  rewrite (Rltb_t _ _ HP). cbn -[Rdiv]. rewrite (Reqb_f k 0 Hk). cbn -[Rdiv]. reflexivity.
Qed.

Lemma x_inverse_sigmoid_lo x0 k lo hi :
  0 < k -> lo < hi ->
  inverse_sigmoid (Fin lo) (Fin x0) (Fin k) (Fin lo) (Fin hi) = MInf.
Proof.
  intros Hk H. unfold inverse_sigmoid. cbn -[Rdiv].
  unfold xsub; cbn -[Rdiv].
  rewrite (Reqb_t (lo + - lo) 0) by lra. rewrite (Reqb_f (hi + - lo) 0) by lra.
  rewrite (Rltb_t 0 (hi + - lo)) by lra. cbn -[Rdiv].
  rewrite (Reqb_f k 0) by lra. unfold xscale_inf.
  rewrite (Reqb_f k 0) by lra. now rewrite (Rltb_t 0 k).
Qed.

Lemma x_inverse_sigmoid_hi x0 k lo hi :
  0 < k -> lo < hi ->
  inverse_sigmoid (Fin hi) (Fin x0) (Fin k) (Fin lo) (Fin hi) = PInf.
Proof.
  intros Hk H. unfold inverse_sigmoid. cbn -[Rdiv].
  unfold xsub; cbn -[Rdiv].
  rewrite (Reqb_f (hi + - lo) 0) by lra. cbn -[Rdiv].
  replace ((hi + - lo) / (hi + - lo) + Ropp 1) with 0 by (field; lra).
  rewrite (Rltb_f 0 0) by lra. rewrite (Reqb_t 0 0) by lra. cbn -[Rdiv].
  rewrite (Reqb_f k 0) by lra. unfold xscale_inf.
  rewrite (Reqb_f k 0) by lra. now rewrite (Rltb_t 0 k).
Qed.

Lemma x_inverse_sigmoid_out y x0 k lo hi :
  k <> 0 -> lo < hi -> y < lo \/ hi < y ->
  inverse_sigmoid (Fin y) (Fin x0) (Fin k) (Fin lo) (Fin hi) = NaN.
Proof.
  intros Hk H Ho. unfold inverse_sigmoid. cbn -[Rdiv].
  unfold xsub; cbn -[Rdiv].
  rewrite (Reqb_f (y + - lo) 0) by lra. cbn -[Rdiv].
  assert (HN : (hi + - lo) / (y + - lo) + Ropp 1 < 0).
  { destruct Ho as [Ho|Ho].
    - assert (0 < (hi + - lo) / (- (y + - lo))) by (apply Rdiv_lt_0_compat; lra).
      replace ((hi + - lo) / (y + - lo)) with (- ((hi + - lo) / (- (y + - lo)))) by (field; lra).
      lra.
    - assert ((hi + - lo) / (y + - lo) < 1); [|lra].
      apply Rmult_lt_reg_r with (y + - lo); [lra|].
      unfold Rdiv. rewrite Rmult_assoc, Rinv_l; lra. }
  rewrite (Rltb_f 0 _) by lra. rewrite (Reqb_f _ 0) by lra. reflexivity.
Qed.

Lemma x_inverse_sigmoid_nonfinite y x0 k lo hi :
  lo < hi -> y = PInf \/ y = MInf \/ y = NaN ->
  inverse_sigmoid y (Fin x0) (Fin k) (Fin lo) (Fin hi) = NaN.
Proof.
  intros H [-> | [-> | ->]]; unfold inverse_sigmoid; cbn; auto;
    rewrite (Rltb_f 0 (0 + Ropp 1)) by lra; rewrite (Reqb_f (0 + Ropp 1) 0) by lra; reflexivity.
Qed.

(** Complete classification of the one-parameter unbounding map. *)
Lemma x_unbounded_param (y : xr) lo hi :
  lo < hi ->
  (forall r, y = Fin r -> lo < r < hi ->
     get_unbounded_diffmah_param y (Fin lo, Fin hi)
     = Fin (get_unbounded_diffmah_param r (lo, hi))) /\
  (y = Fin lo -> get_unbounded_diffmah_param y (Fin lo, Fin hi) = MInf) /\
  (y = Fin hi -> get_unbounded_diffmah_param y (Fin lo, Fin hi) = PInf) /\
  (forall r, y = Fin r -> r < lo \/ hi < r ->
     get_unbounded_diffmah_param y (Fin lo, Fin hi) = NaN) /\
  (y = PInf \/ y = MInf \/ y = NaN ->
     get_unbounded_diffmah_param y (Fin lo, Fin hi) = NaN).
Proof.
  intros H. unfold get_unbounded_diffmah_param, BOUNDING_K.
  change (nmul (nconst (1 / 2)) (nadd (Fin lo) (Fin hi))) with (Fin (1 / 2 * (lo + hi))).
  change (@nconst xr Num_xr) with Fin.
  repeat split; intros; subst.
  - rewrite x_inverse_sigmoid_in; auto; try lra.
  - apply x_inverse_sigmoid_lo; lra.
  - apply x_inverse_sigmoid_hi; lra.
  - apply x_inverse_sigmoid_out; auto; lra.
  - now apply x_inverse_sigmoid_nonfinite.
Qed.

Lemma x_unbounded_param_finite (y : xr) lo hi :
  lo < hi ->
  (finite (get_unbounded_diffmah_param y (Fin lo, Fin hi))
   <-> exists r, y = Fin r /\ lo < r < hi).
Proof.
  intros H. destruct (x_unbounded_param y lo hi H) as (Hin & Hlo & Hhi & Hout & Hnf).
  split.
  - intros [u Hu]. destruct y as [r| | |]; try (rewrite Hnf in Hu by auto; discriminate).
    destruct (Rtotal_order r lo) as [L|[L|L]].
    + rewrite (Hout r) in Hu by auto. discriminate.
    + subst. rewrite Hlo in Hu by auto. discriminate.
    + destruct (Rtotal_order r hi) as [M|[M|M]].
      * exists r; auto.
      * subst. rewrite Hhi in Hu by auto. discriminate.
      * rewrite (Hout r) in Hu by auto. discriminate.
  - intros (r & -> & Hr). exists (get_unbounded_diffmah_param r (lo, hi)).
    now apply Hin.
Qed.

Lemma x_inverse_sigmoid_finite (y : xr) x0 k lo hi :
  0 < k -> lo < hi ->
  (finite (inverse_sigmoid y (Fin x0) (Fin k) (Fin lo) (Fin hi))
   <-> exists r, y = Fin r /\ lo < r < hi).
Proof.
  intros Hk H. split.
  - intros [u Hu].
    destruct y as [r| | |]; try (rewrite x_inverse_sigmoid_nonfinite in Hu by auto; discriminate).
    destruct (Rtotal_order r lo) as [L|[L|L]].
    + rewrite x_inverse_sigmoid_out in Hu by (auto; lra). discriminate.
    + subst. rewrite x_inverse_sigmoid_lo in Hu by auto. discriminate.
    + destruct (Rtotal_order r hi) as [M|[M|M]].
      * exists r; auto.
      * subst. rewrite x_inverse_sigmoid_hi in Hu by auto. discriminate.
      * rewrite x_inverse_sigmoid_out in Hu by (auto; lra). discriminate.
  - intros (r & -> & Hr). eexists. apply x_inverse_sigmoid_in; lra.
Qed.

Lemma x_unbounded_transfer p :
  legal p -> get_unbounded_mah_params (inject p) = inject_u (get_unbounded_mah_params p).
Proof.
  intros (H1 & H2 & H3 & H4 & H5).
  unfold get_unbounded_mah_params, get_u_early_late, inject, inject_u.
  cbn [early_index late_index logm0 logtc t_peak u_logm0 u_logtc u_early_index u_late_index u_t_peak MAH_PBOUNDS snd].
  f_equal.
  - exact (proj1 (x_unbounded_param (Fin (logm0 p)) 0 17 ltac:(lra)) _ eq_refl H1).
  - exact (proj1 (x_unbounded_param (Fin (logtc p)) (-1) 1 ltac:(lra)) _ eq_refl H2).
  - apply (x_inverse_sigmoid_in (early_index p) 0 (1/10) (late_index p) 10); lra.
  - exact (proj1 (x_unbounded_param (Fin (late_index p)) (1/10) 5 ltac:(lra)) _ eq_refl H3).
  - exact (proj1 (x_unbounded_param (Fin (t_peak p)) (5/100) 20 ltac:(lra)) _ eq_refl H5).
Qed.

Lemma x_unbounded_finite_iff (p : DiffmahParams xr) :
  all_finite_u (get_unbounded_mah_params p) <-> exists q, p = inject q /\ legal q.
Proof.
  split.
  - destruct p as [m c e l t].
    unfold all_finite_u, get_unbounded_mah_params, get_u_early_late.
    cbn [early_index late_index logm0 logtc t_peak u_logm0 u_logtc u_early_index u_late_index u_t_peak MAH_PBOUNDS snd].
    change (@nconst xr Num_xr) with Fin. unfold BOUNDING_K. change (@nconst xr Num_xr) with Fin.
    intros (F1 & F2 & F3 & F4 & F5).
    apply x_unbounded_param_finite in F1; [|lra].
    apply x_unbounded_param_finite in F2; [|lra].
    apply x_unbounded_param_finite in F4; [|lra].
    apply x_unbounded_param_finite in F5; [|lra].
    destruct F1 as (r1 & -> & H1), F2 as (r2 & -> & H2), F4 as (r4 & -> & H4), F5 as (r5 & -> & H5).
    apply x_inverse_sigmoid_finite in F3; [|lra|lra]. destruct F3 as (r3 & -> & H3).
    exists (mkParams r1 r2 r3 r4 r5). split; [reflexivity|].
    unfold legal; cbn. lra.
  - intros (q & -> & Hq). rewrite x_unbounded_transfer by auto.
    unfold all_finite_u, inject_u, finite; cbn. eauto 10.
Qed.

(** ** Bounding on special values, and the round trip on the closed domain *)

Lemma x_bounded_param_fin u lo hi :
  get_bounded_diffmah_param (Fin u) (Fin lo, Fin hi) = Fin (get_bounded_diffmah_param u (lo, hi)).
Proof. reflexivity. Qed.

Lemma x_bounded_param_inf lo hi :
  get_bounded_diffmah_param PInf (Fin lo, Fin hi) = Fin hi /\
  get_bounded_diffmah_param MInf (Fin lo, Fin hi) = Fin lo /\
  get_bounded_diffmah_param NaN (Fin lo, Fin hi) = NaN.
Proof.
  unfold get_bounded_diffmah_param, sigmoid, BOUNDING_K. cbn -[Rdiv].
  unfold xscale_inf. rewrite (Reqb_f (1 / 10) 0) by lra. rewrite (Rltb_t 0 (1 / 10)) by lra.
  cbn. repeat split; f_equal; ring.
Qed.

Lemma x_roundtrip_closed r lo hi :
  lo < hi -> lo <= r <= hi ->
  get_bounded_diffmah_param (get_unbounded_diffmah_param (Fin r) (Fin lo, Fin hi)) (Fin lo, Fin hi)
  = Fin r.
Proof.
  intros H [H1 H2]. destruct (x_unbounded_param (Fin r) lo hi H) as (Hin & Hlo & Hhi & _).
  destruct (x_bounded_param_inf lo hi) as (B1 & B2 & _).
  destruct H1 as [H1|H1]; [destruct H2 as [H2|H2]|].
  - rewrite (Hin r) by auto. rewrite x_bounded_param_fin. f_equal.
    apply bounded_unbounded_param; auto.
  - subst. rewrite Hhi by auto. exact B1.
  - subst. rewrite Hlo by auto. exact B2.
Qed.

(** ** Mass history at special times *)

Lemma x_noq_fin p t lgt0 :
  0 < t -> log_mah_noq_kern (inject p) (Fin t) (Fin lgt0) = Fin (log_mah_noq_kern p t lgt0).
Proof.
  intros Ht. unfold log_mah_noq_kern, rolling_plaw_vs_t. cbn [nlog10 Num_xr xlog_gen].
  rewrite (Rltb_t 0 t Ht). reflexivity.
Qed.

Lemma x_log_mah_fin p t lgt0 :
  0 < t -> 0 < t_peak p ->
  logmh_at_t_obs (inject p) (Fin t) (Fin lgt0) = Fin (logmh_at_t_obs p t lgt0).
Proof.
  intros Ht Hp. unfold logmh_at_t_obs, log_mah_kern. cbn [inject t_peak].
  change (mkParams (Fin (logm0 p)) (Fin (logtc p)) (Fin (early_index p)) (Fin (late_index p)) (Fin (t_peak p)))
    with (inject p).
  rewrite !x_noq_fin by auto.
  unfold jwhere. cbn [nltb Num_xr Num_R xltb].
  destruct (Rltb t (t_peak p)); reflexivity.
Qed.

Lemma x_noq_zero p lgt0 :
  0 < early_index p -> log_mah_noq_kern (inject p) (Fin 0) (Fin lgt0) = MInf.
Proof.
  intros He. unfold log_mah_noq_kern, rolling_plaw_vs_t, rolling_plaw_vs_logt,
    power_law_index_vs_logt, sigmoid, MAH_K. cbn -[Rdiv].
  rewrite (Rltb_f 0 0) by lra. rewrite (Reqb_t 0 0) by lra. cbn -[Rdiv].
  unfold xscale_inf. rewrite (Reqb_f (35 / 10) 0) by lra. rewrite (Rltb_t 0 (35 / 10)) by lra.
  cbn -[Rdiv].
  replace (early_index p + (late_index p + - early_index p) * 0) with (early_index p) by ring.
  unfold xscale_inf. rewrite (Reqb_f (early_index p) 0) by lra. now rewrite (Rltb_t 0 (early_index p)) by lra.
Qed.

Lemma x_log_mah_zero p lgt0 :
  0 < early_index p -> 0 < t_peak p ->
  logmh_at_t_obs (inject p) (Fin 0) (Fin lgt0) = MInf
  /\ mah_kern (inject p) (Fin 0) (Fin lgt0) = Fin 0.
Proof.
  intros He Hp.
  assert (H : log_mah_kern (inject p) (Fin 0) (Fin lgt0) = MInf).
  { unfold log_mah_kern. rewrite x_noq_zero by auto. cbn [inject t_peak].
    unfold jwhere. cbn [nltb Num_xr xltb]. now rewrite (Rltb_t 0 (t_peak p)). }
  split; [exact H|]. unfold mah_kern. rewrite H. reflexivity.
Qed.

Lemma x_log_mah_neg p t lgt0 :
  t < 0 -> 0 < t_peak p -> logmh_at_t_obs (inject p) (Fin t) (Fin lgt0) = NaN.
Proof.
  intros Ht Hp. unfold logmh_at_t_obs, log_mah_kern. cbn [inject t_peak].
  unfold jwhere. cbn [nltb Num_xr xltb]. rewrite (Rltb_t t (t_peak p)) by lra.
  unfold log_mah_noq_kern, rolling_plaw_vs_t. cbn [nlog10 Num_xr xlog_gen].
  rewrite (Rltb_f 0 t) by lra. rewrite (Reqb_f t 0) by lra. reflexivity.
Qed.

Lemma x_log_mah_late p t lgt0 :
  0 < t_peak p -> t = PInf \/ t = NaN ->
  logmh_at_t_obs (inject p) t (Fin lgt0) = Fin (logmh_at_t_obs p (t_peak p) lgt0).
Proof.
  intros Hp Ht. unfold logmh_at_t_obs, log_mah_kern. cbn [inject t_peak].
  change (mkParams (Fin (logm0 p)) (Fin (logtc p)) (Fin (early_index p)) (Fin (late_index p)) (Fin (t_peak p)))
    with (inject p).
  rewrite (x_noq_fin p (t_peak p)) by auto.
  unfold jwhere.
  destruct Ht as [-> | ->]; cbn [nltb Num_xr Num_R xltb];
    rewrite (Rltb_f (t_peak p) (t_peak p)) by lra; reflexivity.
Qed.

Lemma xadd_nan_r x : xadd x NaN = NaN. Proof. now destruct x. Qed.
Lemma xmul_nan_r x : xmul x NaN = NaN. Proof. now destruct x. Qed.
Lemma xadd_nan_l x : xadd NaN x = NaN. Proof. now destruct x. Qed.
Lemma xmul_nan_l x : xmul NaN x = NaN. Proof. now destruct x. Qed.
Lemma xsub_nan_r x : xsub x NaN = NaN. Proof. now destruct x. Qed.
Lemma xsub_nan_l x : xsub NaN x = NaN. Proof. now destruct x. Qed.

Lemma x_noq_nan (p : DiffmahParams xr) t lgt0 :
  logm0 p = NaN \/ logtc p = NaN \/ early_index p = NaN \/ late_index p = NaN \/ t = NaN ->
  log_mah_noq_kern p t lgt0 = NaN.
Proof.
  unfold log_mah_noq_kern, rolling_plaw_vs_t, rolling_plaw_vs_logt,
    power_law_index_vs_logt, sigmoid, MAH_K.
  cbn [nadd nsub nmul nlogistic nconst nlog10 Num_xr].
  intros [H|[H|[H|[H|H]]]]; rewrite H; cbn [xlog_gen];
    repeat (rewrite ?xadd_nan_l, ?xadd_nan_r, ?xmul_nan_l, ?xmul_nan_r, ?xsub_nan_l, ?xsub_nan_r;
            cbn [xlogistic]); reflexivity.
Qed.

Lemma x_log_mah_nan_params (p : DiffmahParams xr) t lgt0 :
  logm0 p = NaN \/ logtc p = NaN \/ early_index p = NaN \/ late_index p = NaN \/ t_peak p = NaN ->
  logmh_at_t_obs p t lgt0 = NaN.
Proof.
  intros H. unfold logmh_at_t_obs, log_mah_kern, jwhere.
  destruct (nltb t (t_peak p)) eqn:E.
  - apply x_noq_nan. destruct H as [H|[H|[H|[H|H]]]]; auto.
    rewrite H in E. destruct t; cbn in E; discriminate.
  - apply x_noq_nan. tauto.
Qed.
