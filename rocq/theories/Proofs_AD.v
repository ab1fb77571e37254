(** Soundness of dual-number differentiation of the kernel source. *)

From Coq Require Import Reals Lra List.
From Coquelicot Require Import Coquelicot.
From Verif Require Import Model_Num RealAux Model_Kernels Spec_Kernels Proofs_Kernels.
Local Open Scope R_scope.

(** [d] carries the value and the derivative of [f] at [x]. *)
Definition tracks (f : R -> R) (x : R) (d : Dual R) : Prop :=
  dval d = f x /\ is_derive f x (dder d).

Lemma is_derive_eq (f : R -> R) x l l' : is_derive f x l -> l = l' -> is_derive f x l'.
Proof. now intros H <-. Qed.

Lemma tracks_const c x : tracks (fun _ => c) x (nconst c).
Proof. split; [reflexivity|]. exact (@is_derive_const R_AbsRing R_NormedModule _ _). Qed.

Lemma tracks_lift c x : tracks (fun _ => c) x (dlift c).
Proof. split; [reflexivity|]. exact (@is_derive_const R_AbsRing R_NormedModule _ _). Qed.

Lemma tracks_add f g x a b :
  tracks f x a -> tracks g x b -> tracks (fun y => f y + g y) x (nadd a b).
Proof.
  intros [Ha Ha'] [Hb Hb']. split; cbn.
  - now rewrite Ha, Hb.
  - exact (@is_derive_plus R_AbsRing R_NormedModule f g x _ _ Ha' Hb').
Qed.

Lemma tracks_sub f g x a b :
  tracks f x a -> tracks g x b -> tracks (fun y => f y - g y) x (nsub a b).
Proof.
  intros [Ha Ha'] [Hb Hb']. split; cbn.
  - now rewrite Ha, Hb.
  - exact (@is_derive_minus R_AbsRing R_NormedModule f g x _ _ Ha' Hb').
Qed.

Lemma tracks_mul f g x a b :
  tracks f x a -> tracks g x b -> tracks (fun y => f y * g y) x (nmul a b).
Proof.
  intros [Ha Ha'] [Hb Hb']. split; cbn.
  - now rewrite Ha, Hb.
  - eapply is_derive_eq.
    + apply (is_derive_mult f g x _ _ Ha' Hb'). intros; apply Rmult_comm.
    + rewrite Ha, Hb. unfold plus, mult; cbn. ring.
Qed.

Lemma tracks_div f g x a b :
  tracks f x a -> tracks g x b -> g x <> 0 -> tracks (fun y => f y / g y) x (ndiv a b).
Proof.
  intros [Ha Ha'] [Hb Hb'] Hg. split; cbn.
  - now rewrite Ha, Hb.
  - eapply is_derive_eq.
    + apply (is_derive_div f g x _ _ Ha' Hb' Hg).
    + rewrite Ha, Hb. cbn. field. auto.
Qed.

Lemma tracks_comp h h' f x a :
  tracks f x a -> is_derive h (f x) h' -> tracks (fun y => h (f y)) x (mkDual (h (f x)) (h' * dder a)).
Proof.
  intros [Ha Ha'] Hh. split; [reflexivity|]. cbn.
  eapply is_derive_eq.
  - apply (is_derive_comp h f x _ _ Hh Ha').
  - unfold scal; cbn. unfold mult; cbn. ring.
Qed.

Lemma tracks_logistic f x a :
  tracks f x a -> tracks (fun y => logistic (f y)) x (nlogistic a).
Proof.
  intros H. pose proof (tracks_comp logistic _ f x a H (is_derive_logistic (f x))) as HC.
  destruct H as [Ha _]. cbn. unfold dlogistic; cbn. rewrite Ha. exact HC.
Qed.

Lemma tracks_log10 f x a :
  tracks f x a -> 0 < f x -> tracks (fun y => log10 (f y)) x (nlog10 a).
Proof.
  intros H Hp. pose proof (tracks_comp log10 _ f x a H (is_derive_log10 (f x) Hp)) as [HC1 HC2].
  destruct H as [Ha _]. cbn. unfold dlog10; cbn. rewrite Ha. split; [exact HC1|]. cbn in *.
  eapply is_derive_eq; [exact HC2|]. cbn. change (@eq R (/ (f x * ln 10) * dder a) (dder a / (f x * ln 10))). field. split; [apply ln10_neq0|lra].
Qed.

Lemma tracks_pow10 f x a :
  tracks f x a -> tracks (fun y => pow10 (f y)) x (npow10 a).
Proof.
  intros H. pose proof (tracks_comp pow10 _ f x a H (is_derive_pow10 (f x))) as HC.
  destruct H as [Ha _]. cbn. unfold dpow10; cbn. rewrite Ha. exact HC.
Qed.

Lemma tracks_log f x a :
  tracks f x a -> 0 < f x -> tracks (fun y => ln (f y)) x (nlog a).
Proof.
  intros H Hp.
  assert (HD : is_derive ln (f x) (/ f x)) by (apply is_derive_Reals; now apply derivable_pt_lim_ln).
  pose proof (tracks_comp ln _ f x a H HD) as [HC1 HC2].
  destruct H as [Ha _]. cbn. unfold dlog; cbn. rewrite Ha. split; [exact HC1|]. cbn in *.
  eapply is_derive_eq; [exact HC2|]. change (@eq R (/ f x * dder a) (dder a / f x)). field. lra.
Qed.

(** [where]: away from the switching point the chosen branch is chosen on a
    neighbourhood. *)
Lemma tracks_where_lt f g b1 b2 x a b d1 d2 :
  tracks f x a -> tracks g x b -> tracks b1 x d1 -> tracks b2 x d2 ->
  f x <> g x ->
  tracks (fun y => jwhere (Rltb (f y) (g y)) (b1 y) (b2 y)) x (jwhere (nltb a b) d1 d2).
Proof.
  intros [Ha Ha'] [Hb Hb'] [H1 H1'] [H2 H2'] Hne.
  assert (Hcf : continuous f x) by (apply (ex_derive_continuous f); eexists; eauto).
  assert (Hcg : continuous g x) by (apply (ex_derive_continuous g); eexists; eauto).
  assert (Hcd : continuous (fun y => g y - f y) x)
    by exact (@continuous_minus R_UniformSpace R_AbsRing R_NormedModule g f x Hcg Hcf).
  cbn. unfold dltb; cbn. rewrite Ha, Hb.
  destruct (Rtotal_order (f x) (g x)) as [L|[L|L]]; [|contradiction|].
  - assert (HL : locally x (fun y => 0 < g y - f y)).
    { exact (Hcd (fun z => 0 < z) (locally_gt (g x - f x) 0 ltac:(lra))). }
    split.
    + unfold jwhere. rewrite (proj2 (Rltb_true (f x) (g x)) L). exact H1.
    + unfold jwhere at 2. rewrite (proj2 (Rltb_true (f x) (g x)) L).
      apply (is_derive_ext_loc b1); auto.
      revert HL. apply filter_imp. intros y Hy. unfold jwhere.
      now rewrite (proj2 (Rltb_true (f y) (g y))) by lra.
  - assert (HL : locally x (fun y => g y - f y < 0)).
    { exact (Hcd (fun z => z < 0) (locally_lt (g x - f x) 0 ltac:(lra))). }
    split.
    + unfold jwhere. rewrite (proj2 (Rltb_false (f x) (g x))) by lra. exact H2.
    + unfold jwhere at 2. rewrite (proj2 (Rltb_false (f x) (g x))) by lra.
      apply (is_derive_ext_loc b2); auto.
      revert HL. apply filter_imp. intros y Hy. unfold jwhere.
      now rewrite (proj2 (Rltb_false (f y) (g y))) by lra.
Qed.

(** The condition does not vary. *)
Lemma tracks_where_const f g b1 b2 x a b d1 d2 :
  dval a = f -> dval b = g -> tracks b1 x d1 -> tracks b2 x d2 ->
  tracks (fun y => jwhere (Rltb f g) (b1 y) (b2 y)) x (jwhere (nltb a b) d1 d2).
Proof.
  intros Ha Hb H1 H2. cbn. unfold dltb; cbn. rewrite Ha, Hb.
  unfold jwhere. destruct (Rltb f g); auto.
Qed.

Lemma tracks_sigmoid fx fx0 fk flo fhi x a b c d e :
  tracks fx x a -> tracks fx0 x b -> tracks fk x c -> tracks flo x d -> tracks fhi x e ->
  tracks (fun y => sigmoid (fx y) (fx0 y) (fk y) (flo y) (fhi y)) x (sigmoid a b c d e).
Proof.
  intros. unfold sigmoid. cbn [nadd nsub nmul nlogistic Num_R].
  change (@nadd _ Num_Dual) with (@dadd R _). change (@nsub _ Num_Dual) with (@dsub R _).
  change (@nmul _ Num_Dual) with (@dmul R _). change (@nlogistic _ Num_Dual) with (@dlogistic R _).
  apply tracks_add; auto.
  apply tracks_mul.
  - apply tracks_sub; auto.
  - apply tracks_logistic. apply tracks_mul; auto. apply tracks_sub; auto.
Qed.

(** A curve of parameters and the duals that follow it. *)
Definition tracks_params (P : R -> DiffmahParams R) (x : R) (d : DiffmahParams (Dual R)) : Prop :=
  tracks (fun y => logm0 (P y)) x (logm0 d) /\
  tracks (fun y => logtc (P y)) x (logtc d) /\
  tracks (fun y => early_index (P y)) x (early_index d) /\
  tracks (fun y => late_index (P y)) x (late_index d) /\
  tracks (fun y => t_peak (P y)) x (t_peak d).

Definition tracks_uparams (U : R -> DiffmahUParams R) (x : R) (d : DiffmahUParams (Dual R)) : Prop :=
  tracks (fun y => u_logm0 (U y)) x (u_logm0 d) /\
  tracks (fun y => u_logtc (U y)) x (u_logtc d) /\
  tracks (fun y => u_early_index (U y)) x (u_early_index d) /\
  tracks (fun y => u_late_index (U y)) x (u_late_index d) /\
  tracks (fun y => u_t_peak (U y)) x (u_t_peak d).

Lemma tracks_bounded_param U x d lo hi :
  tracks U x d ->
  tracks (fun y => get_bounded_diffmah_param (U y) (lo, hi)) x
    (get_bounded_diffmah_param d (nconst lo, nconst hi)).
Proof.
  intros H. unfold get_bounded_diffmah_param. apply tracks_sigmoid; auto.
  all: try apply tracks_const.
  apply (tracks_mul (fun _ => 1 / 2) (fun _ => lo + hi)); [apply tracks_const|].
  apply (tracks_add (fun _ => lo) (fun _ => hi)); apply tracks_const.
Qed.

Lemma tracks_bounded U x d :
  tracks_uparams U x d ->
  tracks_params (fun y => get_bounded_mah_params (U y)) x (get_bounded_mah_params d).
Proof.
  intros (H1 & H2 & H3 & H4 & H5).
  unfold tracks_params, get_bounded_mah_params, get_early_late.
  cbn [logm0 logtc early_index late_index t_peak MAH_PBOUNDS snd].
  pose proof (tracks_bounded_param _ _ _ (1 / 10) 5 H4) as HL.
  refine (conj _ (conj _ (conj _ (conj _ _)))).
  - exact (tracks_bounded_param _ _ _ 0 17 H1).
  - exact (tracks_bounded_param _ _ _ (-1) 1 H2).
  - exact (tracks_sigmoid (fun y => u_early_index (U y)) (fun _ => 0) (fun _ => 1 / 10)
      (fun y => get_bounded_diffmah_param (u_late_index (U y)) (1 / 10, 5)) (fun _ => 10)
      x _ _ _ _ _ H3 (tracks_const _ _) (tracks_const _ _) HL (tracks_const _ _)).
  - exact HL.
  - exact (tracks_bounded_param _ _ _ (5 / 100) 20 H5).
Qed.

Lemma tracks_noq P x d ft dt flt0 dlt0 :
  tracks_params P x d -> tracks ft x dt -> tracks flt0 x dlt0 -> 0 < ft x ->
  tracks (fun y => log_mah_noq_kern (P y) (ft y) (flt0 y)) x (log_mah_noq_kern d dt dlt0).
Proof.
  intros (H1 & H2 & H3 & H4 & H5) Ht Hl Hp.
  unfold log_mah_noq_kern, rolling_plaw_vs_t, rolling_plaw_vs_logt, power_law_index_vs_logt, MAH_K.
  pose proof (tracks_log10 _ _ _ Ht Hp) as HT.
  apply (tracks_add (fun y => sigmoid (log10 (ft y)) (logtc (P y)) (35 / 10)
      (early_index (P y)) (late_index (P y)) * (log10 (ft y) - flt0 y)) (fun y => logm0 (P y))); auto.
  apply (tracks_mul (fun y => sigmoid (log10 (ft y)) (logtc (P y)) (35 / 10)
      (early_index (P y)) (late_index (P y))) (fun y => log10 (ft y) - flt0 y)).
  - apply tracks_sigmoid; auto. apply tracks_const.
  - now apply tracks_sub.
Qed.

Lemma tracks_log_mah P x d t lgt0 :
  tracks_params P x d -> 0 < t -> 0 < t_peak (P x) -> t <> t_peak (P x) ->
  tracks (fun y => log_mah_kern (P y) t lgt0) x (log_mah_kern d (dlift t) (dlift lgt0)).
Proof.
  intros H Ht Hp Hne. unfold log_mah_kern.
  apply (tracks_where_lt (fun _ => t) (fun y => t_peak (P y))).
  - apply tracks_lift.
  - apply H.
  - apply (tracks_noq P x d (fun _ => t) _ (fun _ => lgt0)); auto using tracks_lift.
  - apply (tracks_noq P x d (fun y => t_peak (P y)) _ (fun _ => lgt0)); auto using tracks_lift.
    apply H.
  - exact Hne.
Qed.

(** If t_peak does not vary, the derivative is right at every positive time,
    including t = t_peak. *)
Lemma tracks_log_mah_fixed P x d t tp lgt0 :
  tracks_params P x d -> 0 < t -> 0 < tp -> (forall y, t_peak (P y) = tp) ->
  tracks (fun y => log_mah_kern (P y) t lgt0) x (log_mah_kern d (dlift t) (dlift lgt0)).
Proof.
  intros H Ht Hp Hc. unfold log_mah_kern.
  assert (HT : tracks (fun y => jwhere (Rltb t tp) (log_mah_noq_kern (P y) t lgt0)
      (log_mah_noq_kern (P y) (t_peak (P y)) lgt0)) x
    (jwhere (nltb (dlift t) (t_peak d)) (log_mah_noq_kern d (dlift t) (dlift lgt0))
      (log_mah_noq_kern d (t_peak d) (dlift lgt0)))).
  { apply tracks_where_const; try reflexivity.
    - destruct H as (_ & _ & _ & _ & [H _]). rewrite H. apply Hc.
    - apply (tracks_noq P x d (fun _ => t) _ (fun _ => lgt0)); auto using tracks_lift.
    - apply (tracks_noq P x d (fun y => t_peak (P y)) _ (fun _ => lgt0)); auto using tracks_lift.
      + apply H.
      + rewrite Hc. auto. }
  destruct HT as [HT1 HT2]. split.
  - rewrite HT1. cbn [nltb Num_R]. now rewrite Hc.
  - eapply is_derive_ext; [|exact HT2]. intros y. cbn [nltb Num_R]. now rewrite Hc.
Qed.

Lemma tracks_line a b : tracks (fun h => a + h * b) 0 (mkDual a b).
Proof.
  split; cbn; [ring|]. auto_derive; auto. ring.
Qed.

Lemma tracks_uline u v : tracks_uparams (uline u v) 0 (useed u v).
Proof. unfold tracks_uparams, uline, useed; cbn. refine (conj _ (conj _ (conj _ (conj _ _)))); apply tracks_line. Qed.

Lemma uline_0 u v : uline u v 0 = u.
Proof. destruct u; unfold uline; cbn. f_equal; ring. Qed.

Lemma ad_u_params u v t lgt0 :
  0 < t -> t <> t_peak (get_bounded_mah_params u) ->
  dval (log_mah_kern_u_params (useed u v) (dlift t) (dlift lgt0)) = log_mah_kern_u_params u t lgt0
  /\ is_derive (fun h => log_mah_kern_u_params (uline u v h) t lgt0) 0
       (dder (log_mah_kern_u_params (useed u v) (dlift t) (dlift lgt0))).
Proof.
  intros Ht Hne.
  destruct (bounded_legal u) as (_ & _ & _ & _ & H5).
  pose proof (tracks_log_mah (fun h => get_bounded_mah_params (uline u v h)) 0
    (get_bounded_mah_params (useed u v)) t lgt0) as HT.
  cbv beta in HT. rewrite uline_0 in HT.
  destruct HT as [H1 H2]; auto.
  - apply tracks_bounded, tracks_uline.
  - lra.
  - split; [|exact H2]. rewrite <- (uline_0 u v) at 2. exact H1.
Qed.

Lemma ad_u_params_fixed u v t lgt0 :
  0 < t -> u_t_peak v = 0 ->
  dval (log_mah_kern_u_params (useed u v) (dlift t) (dlift lgt0)) = log_mah_kern_u_params u t lgt0
  /\ is_derive (fun h => log_mah_kern_u_params (uline u v h) t lgt0) 0
       (dder (log_mah_kern_u_params (useed u v) (dlift t) (dlift lgt0))).
Proof.
  intros Ht Hv.
  destruct (bounded_legal u) as (_ & _ & _ & _ & H5).
  pose proof (tracks_log_mah_fixed (fun h => get_bounded_mah_params (uline u v h)) 0
    (get_bounded_mah_params (useed u v)) t (t_peak (get_bounded_mah_params u)) lgt0) as HT.
  destruct HT as [H1 H2]; auto.
  - apply tracks_bounded, tracks_uline.
  - lra.
  - intros y. unfold get_bounded_mah_params, uline. cbn [t_peak u_t_peak].
    rewrite Hv. now replace (u_t_peak u + y * 0) with (u_t_peak u) by ring.
  - split; [|exact H2]. rewrite <- (uline_0 u v) at 2. exact H1.
Qed.
