(** Auxiliary facts about the real-number operations of Model_Num. *)

From Coq Require Import Reals Lra List.
From Coquelicot Require Import Coquelicot.
From Verif Require Import Model_Num.
Local Open Scope R_scope.

Lemma Rltb_true x y : Rltb x y = true <-> x < y.
Proof. unfold Rltb; destruct (Rlt_dec x y); split; intros; try lra; auto; discriminate. Qed.

Lemma Rltb_false x y : Rltb x y = false <-> y <= x.
Proof. unfold Rltb; destruct (Rlt_dec x y); split; intros; try lra; auto; discriminate. Qed.

Lemma Rleb_true x y : Rleb x y = true <-> x <= y.
Proof. unfold Rleb; destruct (Rle_dec x y); split; intros; try lra; auto; discriminate. Qed.

Lemma Rleb_false x y : Rleb x y = false <-> y < x.
Proof. unfold Rleb; destruct (Rle_dec x y); split; intros; try lra; auto; discriminate. Qed.

Lemma Reqb_true x y : Reqb x y = true <-> x = y.
Proof. unfold Reqb; destruct (Req_EM_T x y); split; intros; auto; try discriminate; contradiction. Qed.

Lemma Reqb_false x y : Reqb x y = false <-> x <> y.
Proof. unfold Reqb; destruct (Req_EM_T x y); split; intros; auto; try discriminate; contradiction. Qed.

Lemma ln10_pos : 0 < ln 10.
Proof. rewrite <- ln_1. apply ln_increasing; lra. Qed.

Lemma ln10_neq0 : ln 10 <> 0.
Proof. pose proof ln10_pos; lra. Qed.

(** ** log10 and pow10 *)

Lemma pow10_pos x : 0 < pow10 x.
Proof. apply exp_pos. Qed.

Lemma log10_pow10 x : log10 (pow10 x) = x.
Proof. unfold log10, pow10. rewrite ln_exp. field. apply ln10_neq0. Qed.

Lemma pow10_log10 x : 0 < x -> pow10 (log10 x) = x.
Proof.
  intros H. unfold log10, pow10.
  replace (ln x / ln 10 * ln 10) with (ln x) by (field; apply ln10_neq0).
  now apply exp_ln.
Qed.

Lemma pow10_lt x y : x < y -> pow10 x < pow10 y.
Proof.
  intros H. apply exp_increasing. apply Rmult_lt_compat_r; auto. apply ln10_pos.
Qed.

Lemma pow10_le x y : x <= y -> pow10 x <= pow10 y.
Proof. intros [H|H]; [left; now apply pow10_lt | right; now rewrite H]. Qed.

Lemma pow10_lt_inv x y : pow10 x < pow10 y -> x < y.
Proof.
  intros H. destruct (Rlt_le_dec x y) as [|L]; auto.
  apply pow10_le in L. lra.
Qed.

Lemma pow10_inj x y : pow10 x = pow10 y -> x = y.
Proof. intros H. rewrite <- (log10_pow10 x), H. apply log10_pow10. Qed.

Lemma pow10_plus x y : pow10 (x + y) = pow10 x * pow10 y.
Proof. unfold pow10. rewrite <- exp_plus. f_equal; ring. Qed.

Lemma pow10_0 : pow10 0 = 1.
Proof. unfold pow10. rewrite Rmult_0_l. apply exp_0. Qed.

Lemma pow10_1 : pow10 1 = 10.
Proof. unfold pow10. rewrite Rmult_1_l. apply exp_ln; lra. Qed.

Lemma log10_lt x y : 0 < x -> x < y -> log10 x < log10 y.
Proof.
  intros Hx Hxy. unfold log10. apply Rmult_lt_compat_r.
  - apply Rinv_0_lt_compat, ln10_pos.
  - apply ln_increasing; lra.
Qed.

Lemma log10_le x y : 0 < x -> x <= y -> log10 x <= log10 y.
Proof. intros Hx [H|H]; [left; now apply log10_lt | right; now rewrite H]. Qed.

Lemma log10_lt_inv x y : 0 < x -> 0 < y -> log10 x < log10 y -> x < y.
Proof.
  intros Hx Hy H. rewrite <- (pow10_log10 x), <- (pow10_log10 y); auto. now apply pow10_lt.
Qed.

Lemma log10_le_pow10 x y : 0 < x -> x <= pow10 y -> log10 x <= y.
Proof. intros Hx H. rewrite <- (log10_pow10 y). now apply log10_le. Qed.

Lemma log10_lt_pow10 x y : 0 < x -> x < pow10 y -> log10 x < y.
Proof. intros Hx H. rewrite <- (log10_pow10 y). now apply log10_lt. Qed.

Lemma log10_gt_pow10 x y : pow10 y < x -> y < log10 x.
Proof. intros H. rewrite <- (log10_pow10 y) at 1. apply log10_lt; auto. apply pow10_pos. Qed.

Lemma log10_ge_pow10 x y : pow10 y <= x -> y <= log10 x.
Proof. intros H. rewrite <- (log10_pow10 y) at 1. apply log10_le; auto. apply pow10_pos. Qed.

Lemma log10_1 : log10 1 = 0.
Proof. unfold log10. rewrite ln_1. unfold Rdiv; ring. Qed.

Lemma log10_10 : log10 10 = 1.
Proof. rewrite <- pow10_1 at 1. apply log10_pow10. Qed.

(** ** the logistic function *)

Lemma logistic_pos x : 0 < logistic x.
Proof. unfold logistic. apply Rinv_0_lt_compat. pose proof (exp_pos (-x)); lra. Qed.

Lemma logistic_lt1 x : logistic x < 1.
Proof.
  unfold logistic. pose proof (exp_pos (-x)).
  rewrite <- Rinv_1. apply Rinv_lt_contravar; lra.
Qed.

Lemma logistic_bounds x : 0 < logistic x < 1.
Proof. split; [apply logistic_pos | apply logistic_lt1]. Qed.

Lemma logistic_lt x y : x < y -> logistic x < logistic y.
Proof.
  intros H. unfold logistic. pose proof (exp_pos (-x)); pose proof (exp_pos (-y)).
  apply Rinv_lt_contravar.
  - apply Rmult_lt_0_compat; lra.
  - apply Rplus_lt_compat_l, exp_increasing; lra.
Qed.

Lemma logistic_le x y : x <= y -> logistic x <= logistic y.
Proof. intros [H|H]; [left; now apply logistic_lt | right; now rewrite H]. Qed.

Lemma logistic_0 : logistic 0 = 1 / 2.
Proof. unfold logistic. rewrite Ropp_0, exp_0. lra. Qed.

Lemma logistic_inv x : / logistic x - 1 = exp (- x).
Proof. unfold logistic. rewrite Rinv_inv. ring. Qed.

Lemma logistic_ln s : 0 < s < 1 -> logistic (- ln (/ s - 1)) = s.
Proof.
  intros [H0 H1]. unfold logistic. rewrite Ropp_involutive, exp_ln.
  - rewrite <- (Rinv_inv s) at 2. f_equal. ring.
  - assert (1 < / s); [|lra]. rewrite <- Rinv_1. apply Rinv_lt_contravar; lra.
Qed.

Lemma is_derive_logistic x :
  is_derive logistic x (logistic x * (1 - logistic x)).
Proof.
  unfold logistic. pose proof (exp_pos (- x)).
  auto_derive; [lra|].
  field. lra.
Qed.

Lemma is_derive_log10 x : 0 < x -> is_derive log10 x (/ (x * ln 10)).
Proof.
  intros H. unfold log10. pose proof ln10_pos.
  auto_derive; [lra|]. field; lra.
Qed.

Lemma is_derive_pow10 x : is_derive pow10 x (pow10 x * ln 10).
Proof. unfold pow10. auto_derive; [trivial|]. ring. Qed.
