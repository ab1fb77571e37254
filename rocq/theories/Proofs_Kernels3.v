(** Array-level facts and special times. *)

From Coq Require Import Reals Lra Lia List.
From Coquelicot Require Import Coquelicot.
From Verif Require Import Model_Num RealAux Model_Kernels Spec_Kernels Proofs_Kernels
  Proofs_Kernels2 Proofs_XKernels Proofs_AD Proofs_XAD.
Import ListNotations.
Local Open Scope R_scope.

Lemma x_u_early (p : DiffmahParams xr) : forall l, late_index p = Fin l -> l < 10 ->
  let y := early_index p in let uy := u_early_index (get_unbounded_mah_params p) in
  (y = Fin l -> uy = MInf) /\ (y = Fin 10 -> uy = PInf) /\
  (forall r, y = Fin r -> r < l \/ 10 < r -> uy = NaN) /\
  (y = PInf \/ y = MInf \/ y = NaN -> uy = NaN).
Proof.
  intros l Hl H10. cbv zeta.
  assert (HU : u_early_index (get_unbounded_mah_params p)
    = inverse_sigmoid (early_index p) (Fin 0) (Fin (1 / 10)) (Fin l) (Fin 10)).
  { rewrite <- Hl. reflexivity. }
  rewrite HU. repeat split.
  - intros ->. apply x_inverse_sigmoid_lo; lra.
  - intros ->. apply x_inverse_sigmoid_hi; lra.
  - intros r -> Hr. apply x_inverse_sigmoid_out; lra.
  - intros Hy. apply x_inverse_sigmoid_nonfinite; auto.
Qed.

Lemma mah_singlehalo_map_gen {A} {N : Num A} (p : DiffmahParams A) ts lgt0 :
  mah_singlehalo p ts lgt0
  = (map (fun t => dmhdt_kern_scalar p t lgt0) ts, map (fun t => logmh_at_t_obs p t lgt0) ts).
Proof.
  unfold mah_singlehalo, diffmah_kern.
  now rewrite dmhdt_kern_map, log_mah_kern_arr_map.
Qed.

Lemma halopop_rowwise : forall (A : Type) (N : Num A)
  (p : DiffmahParams (list A)) ts lgt0,
  ((exists out, mah_halopop p ts lgt0 = Some out) <->
   (length (logtc p) = length (logm0 p) /\ length (early_index p) = length (logm0 p) /\
    length (late_index p) = length (logm0 p) /\ length (t_peak p) = length (logm0 p))) /\
  (forall dm lm, mah_halopop p ts lgt0 = Some (dm, lm) ->
    length dm = length (logm0 p) /\ length lm = length (logm0 p) /\
    forall i m c e l tp,
      nth_error (logm0 p) i = Some m -> nth_error (logtc p) i = Some c ->
      nth_error (early_index p) i = Some e -> nth_error (late_index p) i = Some l ->
      nth_error (t_peak p) i = Some tp ->
      nth_error dm i = Some (fst (mah_singlehalo (mkParams m c e l tp) ts lgt0)) /\
      nth_error lm i = Some (snd (mah_singlehalo (mkParams m c e l tp) ts lgt0))).
Proof.
  intros A N p ts lgt0. split.
  - rewrite <- rows5_total. unfold mah_halopop, rows. split.
    + intros [out H]. destruct (rows5 _ _ _ _ _) as [r|]; [eauto|discriminate].
    + intros [r ->]. eauto.
  - intros dm lm H. unfold mah_halopop, rows in H.
    destruct (rows5 _ _ _ _ _) as [r|] eqn:E; [|discriminate].
    injection H as <- <-. destruct (rows5_spec _ _ _ _ _ _ E) as (H1 & _ & _ & _ & _ & HR).
    rewrite !map_length. split; [auto|]. split; [auto|].
    intros i m c e l tp Hm Hc He Hl Htp.
    pose proof (HR i _ _ _ _ _ Hm Hc He Hl Htp) as Hr.
    rewrite !map_map. split; now rewrite (map_nth_error _ _ _ Hr).
Qed.

Lemma logmh_at_t_obs_agrees : forall (A : Type) (N : Num A) (p : DiffmahParams A) ts lgt0,
  length (snd (mah_singlehalo p ts lgt0)) = length ts /\
  length (fst (mah_singlehalo p ts lgt0)) = length ts /\
  forall i t, nth_error ts i = Some t ->
    nth_error (snd (mah_singlehalo p ts lgt0)) i = Some (logmh_at_t_obs p t lgt0).
Proof.
  intros A N p ts lgt0. rewrite mah_singlehalo_map_gen. cbn [fst snd].
  rewrite !map_length. repeat split. intros i t H. now rewrite (map_nth_error _ _ _ H).
Qed.

Lemma map2_spec {B C D} (f : B -> C -> D) x y out :
  map2 f x y = Some out ->
  length out = length x /\ length y = length x /\
  forall i a b, nth_error x i = Some a -> nth_error y i = Some b -> nth_error out i = Some (f a b).
Proof.
  revert y out. induction x as [|a x IH]; intros [|b y] out H; try discriminate.
  - injection H as <-. cbn. repeat split. now intros [|i].
  - cbn in H. destruct (map2 f x y) as [r|] eqn:E; [|discriminate]. injection H as <-.
    destruct (IH _ _ E) as (H1 & H2 & H3). cbn. split; [lia|]. split; [lia|].
    intros [|i] a' b' Ha Hb; cbn in *; [congruence|eauto].
Qed.

Lemma logmh_at_t_obs_pop_spec : forall (A : Type) (N : Num A)
  (p : DiffmahParams (list A)) tobs lgt0 out,
  logmh_at_t_obs_pop p tobs lgt0 = Some out ->
  length out = length (logm0 p) /\ length tobs = length (logm0 p) /\
  forall i m c e l tp t,
    nth_error (logm0 p) i = Some m -> nth_error (logtc p) i = Some c ->
    nth_error (early_index p) i = Some e -> nth_error (late_index p) i = Some l ->
    nth_error (t_peak p) i = Some tp -> nth_error tobs i = Some t ->
    nth_error out i = Some (logmh_at_t_obs (mkParams m c e l tp) t lgt0).
Proof.
  intros A N p tobs lgt0 out H. unfold logmh_at_t_obs_pop, rows in H.
  destruct (rows5 _ _ _ _ _) as [r|] eqn:E; [|discriminate].
  destruct (rows5_spec _ _ _ _ _ _ E) as (H1 & _ & _ & _ & _ & HR).
  destruct (map2_spec _ _ _ _ H) as (L1 & L2 & HM).
  split; [congruence|]. split; [congruence|].
  intros i m c e l tp t Hm Hc He Hl Htp Ht.
  exact (HM i _ _ (HR i _ _ _ _ _ Hm Hc He Hl Htp) Ht).
Qed.

Lemma logmh_slope p lgt0 t :
  0 < t -> t < t_peak p -> t <> pow10 lgt0 ->
  (logmh_at_t_obs p t lgt0 - logm0 p) / (log10 t - lgt0)
  = power_law_index_vs_logt (log10 t) (logtc p) (early_index p) (late_index p).
Proof.
  intros H0 Hp Hne. unfold logmh_at_t_obs. rewrite log_mah_kern_before by auto.
  unfold log_mah_noq_kern, rolling_plaw_vs_t, rolling_plaw_vs_logt. cbn [nadd nmul nsub nlog10 Num_R].
  field. intros H. apply Hne. rewrite <- (pow10_log10 t) by auto. f_equal. lra.
Qed.

Lemma effective_slope : forall p lgt0 t,
  legal p -> 0 < t -> t < t_peak p -> t <> pow10 lgt0 ->
  let slope t := (logmh_at_t_obs p t lgt0 - logm0 p) / (log10 t - lgt0) in
  late_index p < slope t < early_index p /\
  (forall t', t < t' -> t' < t_peak p -> t' <> pow10 lgt0 -> slope t' < slope t).
Proof.
  intros p lgt0 t HL H0 Hp Hne. cbv beta zeta. rewrite logmh_slope by auto. split.
  - now apply index_between.
  - intros t' Ht Hp' Hne'. rewrite logmh_slope by (auto; lra).
    apply index_decreasing; auto. now apply log10_lt.
Qed.

Lemma special_times : forall p lgt0, legal p ->
  let out t := diffmah_kern_scalar (inject p) t (Fin lgt0) in
  out (Fin 0) = (NaN, MInf) /\
  mah_kern (inject p) (Fin 0) (Fin lgt0) = Fin 0 /\
  (forall t, t < 0 -> out (Fin t) = (NaN, NaN)) /\
  (forall t, 0 < t -> out (Fin t) = (Fin (rate p lgt0 t), Fin (logmh_at_t_obs p t lgt0))) /\
  out PInf = (Fin 0, Fin (logmh_at_t_obs p (t_peak p) lgt0)) /\
  out NaN = (NaN, Fin (logmh_at_t_obs p (t_peak p) lgt0)).
Proof.
  intros p lgt0 (HA & HB & HC & HD & HE). cbv zeta. unfold diffmah_kern_scalar.
  assert (H0 : 0 < t_peak p) by lra. assert (H1 : 0 < early_index p) by lra.
  destruct (x_log_mah_zero p lgt0 H1 H0) as [Z1 Z2].
  repeat split.
  - rewrite x_rate_zero by auto. now f_equal.
  - exact Z2.
  - intros t Ht. rewrite x_rate_neg by auto. f_equal. now apply x_log_mah_neg.
  - intros t Ht. rewrite x_rate_fin by auto. rewrite rate_R. f_equal. now apply x_log_mah_fin.
  - rewrite x_rate_inf. f_equal. apply x_log_mah_late; auto.
  - rewrite x_rate_nan. f_equal. apply x_log_mah_late; auto.
Qed.
