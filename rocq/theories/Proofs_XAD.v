(** Special values in derivatives: dual numbers over the extended reals. *)

From Coq Require Import Reals Lra List.
From Coquelicot Require Import Coquelicot.
From Verif Require Import Model_Num RealAux Model_Kernels Spec_Kernels Proofs_Kernels
  Proofs_XKernels Proofs_AD.
Import ListNotations.
Local Open Scope R_scope.

Lemma dfin_const r : nconst r = dfin (nconst r).
Proof. reflexivity. Qed.
Lemma dfin_add a b : nadd (dfin a) (dfin b) = dfin (nadd a b).
Proof. reflexivity. Qed.
Lemma dfin_sub a b : nsub (dfin a) (dfin b) = dfin (nsub a b).
Proof. reflexivity. Qed.
Lemma dfin_mul a b : nmul (dfin a) (dfin b) = dfin (nmul a b).
Proof. reflexivity. Qed.
Lemma dfin_logistic a : nlogistic (dfin a) = dfin (nlogistic a).
Proof. reflexivity. Qed.
Lemma dfin_pow10 a : npow10 (dfin a) = dfin (npow10 a).
Proof. reflexivity. Qed.
Lemma dfin_ltb a b : nltb (dfin a) (dfin b) = nltb a b.
Proof. reflexivity. Qed.
Lemma dfin_lift r : dlift (Fin r) = dfin (dlift r).
Proof. reflexivity. Qed.

Lemma dfin_log10 a : 0 < dval a -> nlog10 (dfin a) = dfin (nlog10 a).
Proof.
  intros H. cbn. unfold dlog10, dfin; cbn.
  rewrite Rltb_t by auto. rewrite Reqb_f; auto.
  pose proof ln10_pos. apply Rgt_not_eq. apply Rmult_lt_0_compat; auto.
Qed.

Lemma dfin_sigmoid a b c d e :
  sigmoid (dfin a) (dfin b) (dfin c) (dfin d) (dfin e) = dfin (sigmoid a b c d e).
Proof. reflexivity. Qed.

Lemma dfin_bounded_param a lo hi :
  get_bounded_diffmah_param (dfin a) (nconst lo, nconst hi)
  = dfin (get_bounded_diffmah_param a (nconst lo, nconst hi)).
Proof. reflexivity. Qed.

Definition dfin_params (p : DiffmahParams (Dual R)) : DiffmahParams (Dual xr) :=
  mkParams (dfin (logm0 p)) (dfin (logtc p)) (dfin (early_index p)) (dfin (late_index p))
    (dfin (t_peak p)).

Lemma dfin_bounded u : get_bounded_mah_params (dfin_uparams u) = dfin_params (get_bounded_mah_params u).
Proof. reflexivity. Qed.

Lemma dfin_noq p t l : 0 < dval t ->
  log_mah_noq_kern (dfin_params p) (dfin t) (dfin l) = dfin (log_mah_noq_kern p t l).
Proof.
  intros H. unfold log_mah_noq_kern, rolling_plaw_vs_t.
  rewrite dfin_log10 by auto. reflexivity.
Qed.

Lemma dfin_log_mah p t l : 0 < dval t -> 0 < dval (t_peak p) ->
  log_mah_kern (dfin_params p) (dfin t) (dfin l) = dfin (log_mah_kern p t l).
Proof.
  intros H H'. unfold log_mah_kern. rewrite dfin_noq by auto.
  change (t_peak (dfin_params p)) with (dfin (t_peak p)).
  rewrite dfin_noq by auto. rewrite dfin_ltb. unfold jwhere.
  now destruct (nltb t (t_peak p)).
Qed.

Lemma dval_bounded_t_peak (u v : DiffmahUParams R) :
  dval (t_peak (get_bounded_mah_params (useed u v))) = t_peak (get_bounded_mah_params u).
Proof. reflexivity. Qed.

Lemma x_gradient_finite u v t lgt0 :
  0 < t ->
  log_mah_kern_u_params (dfin_uparams (useed u v)) (dlift (Fin t)) (dlift (Fin lgt0))
  = dfin (log_mah_kern_u_params (useed u v) (dlift t) (dlift lgt0)).
Proof.
  intros Ht. unfold log_mah_kern_u_params. rewrite !dfin_lift, dfin_bounded.
  apply dfin_log_mah; auto. rewrite dval_bounded_t_peak.
  destruct (bounded_legal u) as (_ & _ & _ & _ & H). lra.
Qed.

(** ** Rates at special times *)

Lemma x_noq_rate_fin p t lgt0 : 0 < t ->
  dmhdt_noq_kern_scalar (inject p) (Fin t) (Fin lgt0) = Fin (dmhdt_noq_kern_scalar p t lgt0).
Proof.
  intros Ht. unfold dmhdt_noq_kern_scalar, dmhdt_noq_grad_kern_scalar, grad, mah_noq_kern.
  change (dlift_params (inject p)) with (dfin_params (dlift_params p)).
  change (mkDual (Fin t) (nconst 1)) with (dfin (mkDual t (nconst 1))).
  rewrite dfin_lift, dfin_noq by auto. rewrite dfin_pow10.
  unfold dfin; cbn -[Rdiv log_mah_noq_kern].
  rewrite Reqb_f by lra. reflexivity.
Qed.

Lemma x_rate_fin p t lgt0 : 0 < t ->
  dmhdt_kern_scalar (inject p) (Fin t) (Fin lgt0) = Fin (dmhdt_kern_scalar p t lgt0).
Proof.
  intros Ht. unfold dmhdt_kern_scalar. rewrite x_noq_rate_fin by auto.
  cbn [nltb Num_xr xltb inject t_peak Num_R]. unfold jwhere. now destruct (Rltb (t_peak p) t).
Qed.

Lemma x_rate_inf p lgt0 :
  dmhdt_kern_scalar (inject p) PInf (Fin lgt0) = Fin 0.
Proof. reflexivity. Qed.

Lemma dnan_noq (p : DiffmahParams xr) (t : Dual xr) l :
  dval t = NaN -> dder (mah_noq_kern (dlift_params p) t l) = NaN.
Proof.
  intros H. cbn. rewrite H. cbn.
  rewrite ?xsub_nan_l, ?xmul_nan_r, ?xmul_nan_l; cbn.
  rewrite ?xsub_nan_l, ?xmul_nan_r, ?xmul_nan_l, ?xadd_nan_l, ?xadd_nan_r; cbn;
  rewrite ?xsub_nan_l, ?xmul_nan_r, ?xmul_nan_l, ?xadd_nan_l, ?xadd_nan_r; reflexivity.
Qed.

Lemma x_rate_nan p lgt0 :
  dmhdt_kern_scalar (inject p) NaN (Fin lgt0) = NaN.
Proof.
  unfold dmhdt_kern_scalar, dmhdt_noq_kern_scalar, dmhdt_noq_grad_kern_scalar, grad.
  rewrite dnan_noq by reflexivity. reflexivity.
Qed.

Lemma x_rate_neg p t lgt0 : t < 0 -> 0 < t_peak p ->
  dmhdt_kern_scalar (inject p) (Fin t) (Fin lgt0) = NaN.
Proof.
  intros Ht Hp.
  unfold dmhdt_kern_scalar, dmhdt_noq_kern_scalar, dmhdt_noq_grad_kern_scalar, grad.
  cbn [nltb Num_xr xltb inject t_peak]. rewrite Rltb_f by lra. unfold jwhere.
  assert (HN : dder (mah_noq_kern (dlift_params (inject p)) (mkDual (Fin t) (nconst 1)) (dlift (Fin lgt0))) = NaN).
  { cbn. rewrite Rltb_f by lra. rewrite Reqb_f by lra. cbn. reflexivity. }
  rewrite HN. reflexivity.
Qed.

Lemma x_rate_zero p lgt0 : 0 < t_peak p ->
  dmhdt_kern_scalar (inject p) (Fin 0) (Fin lgt0) = NaN.
Proof.
  intros Hp.
  unfold dmhdt_kern_scalar, dmhdt_noq_kern_scalar, dmhdt_noq_grad_kern_scalar, grad.
  cbn [nltb Num_xr xltb inject t_peak]. rewrite Rltb_f by lra. unfold jwhere.
  assert (HN : dder (mah_noq_kern (dlift_params (inject p)) (mkDual (Fin 0) (nconst 1)) (dlift (Fin lgt0))) = NaN).
  { cbn -[Rmult Rminus Rplus]. rewrite Rltb_f by lra. rewrite (Reqb_t 0 0) by lra.
    rewrite (Reqb_t (0 * ln 10) 0) by lra. rewrite (Reqb_f 1 0) by lra. rewrite (Rltb_t 0 1) by lra.
    cbn -[Rmult Rminus Rplus Rdiv]. unfold xscale_inf.
    rewrite (Reqb_f (35/10) 0) by lra. rewrite (Rltb_t 0 (35/10)) by lra.
    cbn -[Rmult Rminus Rplus Rdiv]. unfold xscale_inf.
    repeat (rewrite (Reqb_t (0 * (1 + - 0)) 0) by ring).
    cbn -[Rmult Rminus Rplus Rdiv]. 
    rewrite ?(Reqb_t 0 0) by lra. cbn -[Rmult Rminus Rplus Rdiv]. apply xmul_nan_r. }
  rewrite HN. reflexivity.
Qed.
