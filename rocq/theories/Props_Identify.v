(** A history belongs to one set of parameters only (C88). *)

From Coq Require Import Reals Lra List.
From Verif Require Import Model_Num Model_Kernels Spec_Kernels RealAux Proofs_Kernels Proofs_Kernels3 Proofs_Identify.
Local Open Scope R_scope.

(** ** C88 *)

(** Halos whose log-masses agree on an initial stretch of time, however short, have the
    same parameters, the peak time aside. *)
Theorem C88_early_history : forall p q lgt0 T, legal p -> legal q -> 0 < T ->
  (forall t, 0 < t <= T -> logmh_at_t_obs p t lgt0 = logmh_at_t_obs q t lgt0) ->
  logm0 p = logm0 q /\ logtc p = logtc q /\ early_index p = early_index q /\ late_index p = late_index q.
Proof.
  intros p q lgt0 T Hp Hq HT H. unfold legal in Hp, Hq.
  apply (shape_determined p q lgt0 T); try lra. exact H.
Qed.
Print Assumptions C88_early_history.

(** Likewise for the accretion rates [mah_singlehalo] reports. *)
Theorem C88_early_rates : forall p q lgt0 T, legal p -> legal q -> 0 < T ->
  (forall t, 0 < t <= T -> rate p lgt0 t = rate q lgt0 t) ->
  logm0 p = logm0 q /\ logtc p = logtc q /\ early_index p = early_index q /\ late_index p = late_index q.
Proof.
  intros p q lgt0 T Hp Hq HT H. apply (C88_early_history p q lgt0 T Hp Hq HT).
  exact (rates_determine_mass p q lgt0 lgt0 T Hp Hq HT H).
Qed.
Print Assumptions C88_early_rates.

(** Halos with the same history up to today that have stopped growing by then are the
    same. *)
Theorem C88_history : forall p q t0, legal p -> legal q -> 0 < t0 ->
  (forall t, 0 < t <= t0 -> logmh_at_t_obs p t (log10 t0) = logmh_at_t_obs q t (log10 t0)) ->
  Rmin (t_peak p) t0 = Rmin (t_peak q) t0 /\ (t_peak p < t0 -> p = q) /\
  (t_peak p <= t0 -> t_peak q <= t0 -> p = q).
Proof.
  intros p q t0 Hp Hq H0 H. pose proof (peak_determined p q t0 Hp Hq H0 H) as E.
  destruct (C88_early_history p q (log10 t0) t0 Hp Hq H0 H) as (E1 & E2 & E3 & E4).
  split; [exact E|].
  assert (Q : t_peak p = t_peak q -> p = q).
  { destruct p as [a1 a2 a3 a4 a5], q as [b1 b2 b3 b4 b5]. cbn in *. intros. now subst. }
  split.
  - intros L. apply Q. rewrite Rmin_left in E by lra. unfold Rmin in E. destruct (Rle_dec (t_peak q) t0); lra.
  - intros L L'. apply Q. now rewrite !Rmin_left in E by lra.
Qed.
Print Assumptions C88_history.

(** A peak in the future leaves no trace. *)
Theorem C88_future_peak_refuted : exists p q t0, legal p /\ legal q /\ 0 < t0 /\ p <> q /\
  forall t, 0 < t <= t0 ->
    logmh_at_t_obs p t (log10 t0) = logmh_at_t_obs q t (log10 t0) /\ rate p (log10 t0) t = rate q (log10 t0) t.
Proof.
  exists (mkParams 12 (5 / 100) (26 / 10) (2 / 10) 14), (mkParams 12 (5 / 100) (26 / 10) (2 / 10) 15), 13.
  split; [unfold legal; cbn; lra|]. split; [unfold legal; cbn; lra|]. split; [lra|]. split.
  - intros E. apply (f_equal t_peak) in E. cbn in E. lra.
  - intros t Ht. split; [rewrite !kern_at by (cbn; lra); reflexivity|].
    unfold rate. rewrite !mah_singlehalo_map_gen. cbn [fst map].
    unfold dmhdt_kern_scalar, jwhere. cbn [nltb Num_R t_peak].
    rewrite !(proj2 (Rltb_false _ _)) by lra. reflexivity.
Qed.
Print Assumptions C88_future_peak_refuted.

(** The published halo and one with another early index: both legal, so their histories
    differ, and do so arbitrarily early. *)
Example C88_example : forall T, 0 < T ->
  let p := mkParams 12 (5 / 100) (26 / 10) (2 / 10) 14 in let q := mkParams 12 (5 / 100) (27 / 10) (2 / 10) 14 in
  ~ forall t, 0 < t <= T -> logmh_at_t_obs p t (log10 13) = logmh_at_t_obs q t (log10 13).
Proof.
  intros T HT p q H.
  destruct (C88_early_history p q (log10 13) T ltac:(unfold legal; cbn; lra) ltac:(unfold legal; cbn; lra) HT H)
    as (_ & _ & E & _). cbn in E. lra.
Qed.
