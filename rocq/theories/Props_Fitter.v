(** Properties C22-C30, C34, C61, C62: fitting of a single halo.

    Throughout, [f4] is the cast to single precision, [adam] and [minimize] are
    the two optimisers; nothing is assumed of them unless stated. *)

From Coq Require Import Reals Lra Lia List Arith Bool ZArith Permutation.
From Coquelicot Require Import Coquelicot.
From Verif Require Import Model_Num RealAux Model_Base Model_Kernels Model_Utils Model_Adam
  Model_Fitter Spec_Kernels Spec_Fitter Proofs_Kernels Proofs_XKernels Proofs_Adam
  Proofs_Fitter Proofs_Loss Proofs_Fitter2 Proofs_Fitter3 Proofs_FitFloat.
Import ListNotations.
Local Open Scope R_scope.

Definition Adam S := R -> optimizer (Varied xr) (Varied xr) S.
Definition Minimizer :=
  (Varied xr -> xr) -> (Varied xr -> Varied xr) -> Varied xr -> Varied xr * xr * bool.

(** ** C22 *)

(** For any input at all, NaN and infinities included. *)
Theorem C22_skip_iff_too_little_data :
  forall St f4 (adam : Adam St) (mini : Minimizer) t m lgm_min cut tmin nstep nwarm tpf force fr,
  diffmah_fitter f4 adam mini t m lgm_min cut tmin nstep nwarm tpf force = Ok fr ->
  (skip_fit fr = true <->
     force = true \/
     exists n, count_below_last xlt (log_mah_target (loss_data fr)) n /\ (n < 3)%nat).
Proof. intros. eapply fitter_skip; eauto. Qed.
Print Assumptions C22_skip_iff_too_little_data.

Theorem C22_sentinel_iff_skipped :
  forall St f4 (adam : Adam St) (mini : Minimizer) t m lgm_min cut tmin nstep nwarm tpf force fr,
  diffmah_fitter f4 adam mini t m lgm_min cut tmin nstep nwarm tpf force = Ok fr ->
  (skip_fit fr = true ->
     logm0 (p_best fr) = Fin (-99) /\ logtc (p_best fr) = Fin (-99) /\
     early_index (p_best fr) = Fin (-99) /\ late_index (p_best fr) = Fin (-99) /\
     t_peak (p_best fr) = Fin (-99) /\ loss_best fr = Fin (-99) /\
     fit_terminates fr = false /\ code_used fr = (-1)%Z) /\
  (skip_fit fr = false ->
     (code_used fr = 0 \/ code_used fr = 1)%Z /\
     logm0 (p_best fr) <> Fin (-99) /\ logtc (p_best fr) <> Fin (-99) /\
     early_index (p_best fr) <> Fin (-99) /\ late_index (p_best fr) <> Fin (-99) /\
     t_peak (p_best fr) <> Fin (-99)).
Proof.
  intros St f4 adam mini t m g cut tmin ns nw tpf force fr H.
  destruct (fitter_skip f4 adam mini _ _ _ _ _ _ _ _ _ _ H) as (_ & H1 & H2). split.
  - intros HS. destruct (H1 HS) as (-> & A & B & C). cbn. repeat split; auto.
  - intros HS. destruct (H2 HS) as ((B1 & B2 & B3 & B4 & B5 & _) & HC). split; [exact HC|].
    assert (HX : forall lo hi x, nan_or_in lo hi x -> -99 < lo -> x <> Fin (-99)).
    { intros lo hi x [->|(r & -> & Hr)] Hlo; [discriminate|]. injection 1. lra. }
    refine (conj _ (conj _ (conj _ (conj _ _)))); eapply HX; eauto; lra.
Qed.
Print Assumptions C22_sentinel_iff_skipped.

(** The fitter raises exactly when the arrays differ in length, are empty, or
    the number of Adam steps is zero (the last case only if Adam is reached). *)
Theorem C22_never_raises :
  forall St f4 (adam : Adam St) (mini : Minimizer) t m lgm_min cut tmin nstep nwarm tpf force,
  (length m <> length t ->
     diffmah_fitter f4 adam mini t m lgm_min cut tmin nstep nwarm tpf force = Err AssertionError) /\
  (length m = length t -> m = [] ->
     diffmah_fitter f4 adam mini t m lgm_min cut tmin nstep nwarm tpf force = Err ValueError) /\
  (length m = length t -> m <> [] -> (0 < nstep)%nat -> exists fr,
     diffmah_fitter f4 adam mini t m lgm_min cut tmin nstep nwarm tpf force = Ok fr).
Proof.
  intros. destruct (fitter_errors f4 adam mini t m lgm_min cut tmin nstep nwarm tpf force) as (A & B).
  refine (conj A (conj B _)). intros. apply fitter_total; auto.
Qed.
Print Assumptions C22_never_raises.

(** ** C23 *)

Theorem C23_target_is_masked_running_maximum :
  forall St f4 (adam : Adam St) (mini : Minimizer) c t m lgm_min cut tmin nstep nwarm tpf force fr,
  casts f4 c -> (forall x, In x t -> 0 < x) ->
  diffmah_fitter f4 adam mini (map Fin t) (map Fin m) (lgm_arg lgm_min) (Fin cut) (Fin tmin)
    nstep nwarm (option_map Fin tpf) force = Ok fr ->
  exists l0 sel r, last_is (floored lgm_min m) l0 /\
    subsequence_of (fit_point l0 cut lgm_min tmin) (combine t (floored lgm_min m)) sel /\
    running_max (map snd sel) r /\
    t_target (loss_data fr) = map Fin (map fst sel) /\
    log_mah_target (loss_data fr) = map Fin r /\
    (forall i x y, nth_error r i = Some x -> nth_error r (S i) = Some y -> x <= y) /\
    (forall i x y, nth_error (map snd sel) i = Some x -> nth_error r i = Some y -> x <= y).
Proof.
  intros St f4 adam mini c t m g cut tmin ns nw tpf force fr Hc Hp H.
  destruct (fitter_target f4 adam mini c Hc _ _ _ _ _ _ _ _ _ _ Hp H)
    as (l0 & sel & r & H0 & H1 & H2 & H3 & H4 & _).
  destruct (running_max_up _ _ H2). exists l0, sel, r. auto 10.
Qed.
Print Assumptions C23_target_is_masked_running_maximum.

(** ** C24 *)

Theorem C24_first_index_at_final_mass : forall f4 c lm l0, casts f4 c -> last_is lm l0 ->
  exists i, compute_indx_t_peak_singlehalo f4 (map Fin lm) = Ok i /\
    (exists x, nth_error lm i = Some x /\ c x = c l0) /\
    (forall j x, (j < i)%nat -> nth_error lm j = Some x -> c x <> c l0).
Proof. exact indx_t_peak_fin. Qed.
Print Assumptions C24_first_index_at_final_mass.

Theorem C24_non_decreasing_history : forall f4 c lm l0, casts f4 c ->
  (forall x y, x <= y -> c x <= c y) -> last_is lm l0 ->
  (forall i x y, nth_error lm i = Some x -> nth_error lm (S i) = Some y -> x <= y) ->
  exists i, compute_indx_t_peak_singlehalo f4 (map Fin lm) = Ok i /\ (i < length lm)%nat /\
    (forall j x, nth_error lm j = Some x -> (j < i)%nat -> c x < c l0) /\
    (forall j x, nth_error lm j = Some x -> (i <= j)%nat -> c x = c l0).
Proof. exact t_peak_mono. Qed.
Print Assumptions C24_non_decreasing_history.

(** "The index is that of the maximum mass" fails for a history that declines. *)
Theorem C24_index_of_maximum_refuted : exists f4 lm i,
  casts f4 (fun r => r) /\ compute_indx_t_peak_singlehalo f4 (map Fin lm) = Ok i /\
  exists j x y, nth_error lm i = Some x /\ nth_error lm j = Some y /\ x < y.
Proof.
  destruct (indx_t_peak_fin (fun x => x) (fun r => r) [11; 13; 12] 12) as (i & E & (x & Hx & Ex) & _).
  - intros r. reflexivity.
  - exists [11; 13]. reflexivity.
  - exists (fun x => x), [11; 13; 12], i. split; [intros r; reflexivity|]. split; [exact E|].
    exists 1%nat, x, 13. split; [exact Hx|]. split; [reflexivity|lra].
Qed.
Print Assumptions C24_index_of_maximum_refuted.

(** ** C25 *)

Theorem C25_fitted_t_peak :
  forall St f4 (adam : Adam St) (mini : Minimizer) c t m lgm_min cut tmin nstep nwarm tpf force fr,
  casts f4 c -> (forall x, In x t -> 0 < x) ->
  diffmah_fitter f4 adam mini (map Fin t) (map Fin m) (lgm_arg lgm_min) (Fin cut) (Fin tmin)
    nstep nwarm (option_map Fin tpf) force = Ok fr ->
  skip_fit fr = false ->
  exists l0 tp, last_is (floored lgm_min m) l0 /\
    wanted_t_peak c t (floored lgm_min m) l0 tpf tp /\
    (5 / 100 < c tp < 20 -> t_peak (p_best fr) = Fin (c tp)).
Proof.
  intros St f4 adam mini c t m g cut tmin ns nw tpf force fr Hc Hp H HS.
  destruct (fitter_target f4 adam mini c Hc _ _ _ _ _ _ _ _ _ _ Hp H)
    as (l0 & sel & r & H0 & _ & _ & _ & _ & H5).
  destruct (H5 HS) as (tl & tp & _ & _ & H6 & H7). exists l0, tp. auto.
Qed.
Print Assumptions C25_fitted_t_peak.

(** ** C26 *)

(** Whatever the optimisers return, for any input: each parameter is NaN or in
    the closed legal interval. *)
Theorem C26_within_bounds_or_nan :
  forall St f4 (adam : Adam St) (mini : Minimizer) t m lgm_min cut tmin nstep nwarm tpf force fr,
  diffmah_fitter f4 adam mini t m lgm_min cut tmin nstep nwarm tpf force = Ok fr ->
  skip_fit fr = false -> within_bounds (p_best fr).
Proof. intros. eapply fitter_skip; eauto. Qed.
Print Assumptions C26_within_bounds_or_nan.

(** For a finite history: strictly legal, with no NaN. *)
Theorem C26_fitted_parameters_legal :
  forall St f4 (adam : Adam St) (mini : Minimizer) c t m lgm_min cut tmin nstep nwarm tpf force fr l0 tp,
  rounding f4 c -> starts_at_input adam -> honest_minimizer mini ->
  (0 < nstep)%nat -> (forall x, In x t -> 0 < x) ->
  last_is (floored lgm_min m) l0 -> 0 < c l0 < 17 ->
  wanted_t_peak c t (floored lgm_min m) l0 tpf tp -> 5 / 100 < c tp < 20 ->
  diffmah_fitter f4 adam mini (map Fin t) (map Fin m) (lgm_arg lgm_min) (Fin cut) (Fin tmin)
    nstep nwarm (option_map Fin tpf) force = Ok fr ->
  skip_fit fr = false ->
  exists q, p_best fr = inject q /\ legal q /\ t_peak q = c tp.
Proof.
  intros St f4 adam mini c t m g cut tmin ns nw tpf force fr l0 tp HR HA HM Hn Hp HL Hl Hw Ht H HS.
  destruct (fitter_finite f4 c adam mini HR HA HM t m g cut tmin ns nw tpf force fr l0 tp)
    as (q & tl & ts & ys & A & B & C & _); auto.
  { intros tp' Hw'. exact (wanted_fun _ _ _ _ _ _ _ Hw' Hw). }
  exists q. auto.
Qed.
Print Assumptions C26_fitted_parameters_legal.

(** ** C27 *)

Theorem C27_loss_is_mean_squared_residual : forall (v : Varied R) ts ys u_tp lgt0,
  log_mah_loss_uparams v ts ys u_tp lgt0
  = mean_sq_residual (get_bounded_mah_params (all_uparams v u_tp)) lgt0 (combine ts ys).
Proof. intros. symmetry. apply mean_sq_loss. Qed.
Print Assumptions C27_loss_is_mean_squared_residual.

Theorem C27_loss_zero_iff_reproduced : forall (v : Varied R) ts ys u_tp lgt0,
  length ts = length ys -> ts <> [] ->
  0 <= log_mah_loss_uparams v ts ys u_tp lgt0 /\
  (log_mah_loss_uparams v ts ys u_tp lgt0 = 0 <->
   forall t y, In (t, y) (combine ts ys) ->
     logmh_at_t_obs (get_bounded_mah_params (all_uparams v u_tp)) t lgt0 = y).
Proof. intros. split; [now apply loss_nonneg|now apply loss_zero_iff]. Qed.
Print Assumptions C27_loss_zero_iff_reproduced.

Theorem C27_loss_ignores_order : forall (v : Varied R) ts ys ts' ys' u_tp lgt0,
  Permutation (combine ts ys) (combine ts' ys') ->
  log_mah_loss_uparams v ts ys u_tp lgt0 = log_mah_loss_uparams v ts' ys' u_tp lgt0.
Proof. exact loss_perm. Qed.
Print Assumptions C27_loss_ignores_order.

(** The gradient handed to the optimisers is the exact gradient of the loss. *)
Theorem C61_gradient_exact : forall (v : Varied R) ts ys u_tp lgt0,
  (forall t, In t ts -> 0 < t) -> ts <> [] -> length ts = length ys ->
  let L a b c d := log_mah_loss_uparams (mkVaried a b c d) ts ys u_tp lgt0 in
  let g := snd (loss_and_grads_kern v ts ys u_tp lgt0) in
  is_derive (fun x => L x (v_logtc v) (v_early v) (v_late v)) (v_logm0 v) (v_logm0 g) /\
  is_derive (fun x => L (v_logm0 v) x (v_early v) (v_late v)) (v_logtc v) (v_logtc g) /\
  is_derive (fun x => L (v_logm0 v) (v_logtc v) x (v_late v)) (v_early v) (v_early g) /\
  is_derive (fun x => L (v_logm0 v) (v_logtc v) (v_early v) x) (v_late v) (v_late g).
Proof. exact loss_partials. Qed.
Print Assumptions C61_gradient_exact.

(** With IEEE special values: loss and gradient of finite parameters are finite. *)
Theorem C61_loss_and_gradient_finite : forall (v : Varied R) ts ys u_tp lgt0,
  (forall t, In t ts -> 0 < t) -> ts <> [] -> length ts = length ys ->
  loss_and_grads_kern (inject_v v) (map Fin ts) (map Fin ys) (Fin u_tp) (Fin lgt0)
  = (Fin (fst (loss_and_grads_kern v ts ys u_tp lgt0)),
     inject_v (snd (loss_and_grads_kern v ts ys u_tp lgt0))).
Proof. exact x_loss_and_grads. Qed.
Print Assumptions C61_loss_and_gradient_finite.

Example C61_example : (forall t, In t [1; 2] -> 0 < t) /\ [1; 2] <> [] /\ length [1; 2] = length [11; 12].
Proof. split; [|split; [discriminate|reflexivity]]. intros t [<-|[<-|[]]]; lra. Qed.

(** ** C28 *)

Section C28.
  Context {P G St : Type}.
  Variables (pfinite : P -> bool) (gfinite : G -> bool) (pcast : P -> P) (pzero : P).
  Variable adam : R -> optimizer P G St.
  Variable lg : P -> xr * G.
  Notation burn_of := (jax_adam_wrapper_ pfinite gfinite pcast pzero adam lg).
  Notation vis s p := (visited (adam s) lg p).
  Notation losses s p := (fun k => fst (lg (vis s p k))).

  (** No NaN or inf and tolerance not reached: the first best of all steps. *)
  Theorem C28_best_of_all_steps : forall p n s tol, (0 < n)%nat ->
    (forall k, (k < n)%nat -> carries_on pfinite gfinite lg tol (vis s p k)) ->
    exists b, first_best (losses s p) n b /\
      burn_of p n s tol = Ok (mkBurn (pcast (vis s p b)) (losses s p b)
        (map (losses s p) (seq 0 n)) (map (fun k => pcast (vis s p k)) (seq 0 n))).
  Proof.
    intros p n s tol Hn H. destruct (adam_outcome pfinite gfinite pcast pzero adam lg tol p s n) as (_ & _ & O).
    destruct (O H) as [(-> & _)|(_ & b & HB & E)]; [lia|]. exists b. auto.
  Qed.

  (** NaN or inf first met at step [k > 0]: the first best of the first [k] steps. *)
  Theorem C28_nan_after_first_step : forall p n s tol k, (0 < k < n)%nat ->
    (forall j, (j < k)%nat -> carries_on pfinite gfinite lg tol (vis s p j)) ->
    ~ clean pfinite gfinite lg (vis s p k) ->
    exists b, first_best (losses s p) k b /\
      burn_of p n s tol = Ok (mkBurn (pcast (vis s p b)) (losses s p b)
        (map (losses s p) (seq 0 k)) (map (fun k => pcast (vis s p k)) (seq 0 k))).
  Proof.
    intros p n s tol k Hk H1 H2.
    destruct (adam_outcome pfinite gfinite pcast pzero adam lg tol p s n) as (O & _ & _).
    destruct (O k ltac:(lia) (conj H1 H2)) as [(-> & _)|(_ & b & HB & E)]; [lia|]. exists b. auto.
  Qed.

  (** NaN or inf at the very first step: the input, loss 999.99, empty arrays. *)
  Theorem C28_nan_at_first_step : forall p n s tol, (0 < n)%nat ->
    get_params (adam s) (opt_init (adam s) p) = p -> ~ clean pfinite gfinite lg p ->
    burn_of p n s tol = Ok (mkBurn p (Fin (99999 / 100)) [] []).
  Proof.
    intros p n s tol Hn Hp H. destruct (adam_outcome pfinite gfinite pcast pzero adam lg tol p s n) as (O & _ & _).
    assert (HV : vis s p 0 = p) by exact Hp.
    destruct (O 0%nat Hn) as [(_ & E)|(HX & _)]; [|rewrite HV in E; exact E|lia].
    split; [intros; lia|]. rewrite HV. exact H.
  Qed.

  (** A loss below the tolerance ends the burn at that point. *)
  Theorem C28_tolerance_reached : forall p n s tol k, (k < n)%nat ->
    (forall j, (j < k)%nat -> carries_on pfinite gfinite lg tol (vis s p j)) ->
    clean pfinite gfinite lg (vis s p k) -> xlt (losses s p k) tol ->
    exists fr, burn_of p n s tol = Ok fr /\
      b_params fr = vis s p k /\ b_loss fr = losses s p k /\
      b_loss_arr fr = map (losses s p) (seq 0 (1 + k)) /\
      b_params_arr fr = map (fun k => pcast (vis s p k)) (seq 0 (1 + k)) ++ repeat pzero (n - (1 + k)).
  Proof.
    intros p n s tol k Hk H1 H2 H3.
    destruct (adam_outcome pfinite gfinite pcast pzero adam lg tol p s n) as (_ & O & _).
    eexists. split; [exact (O k Hk (conj H1 (conj H2 H3)))|]. auto.
  Qed.

  (** One of these cases always applies. *)
  Theorem C28_cases_exhaustive : forall p n s tol,
    (forall k, (k < n)%nat -> carries_on pfinite gfinite lg tol (vis s p k)) \/
    exists k, (k < n)%nat /\ (forall j, (j < k)%nat -> carries_on pfinite gfinite lg tol (vis s p j)) /\
      (~ clean pfinite gfinite lg (vis s p k) \/
       clean pfinite gfinite lg (vis s p k) /\ xlt (losses s p k) tol).
  Proof.
    intros p n s tol.
    destruct (adam_cases pfinite gfinite pcast pzero adam lg tol p s n) as [(k & Hk & A & B)|[(k & Hk & A & B)|H]].
    - right. exists k. auto.
    - right. exists k. auto.
    - left. exact H.
  Qed.

  (** Zero steps: np.nanargmin of an empty array. *)
  Theorem C28_zero_steps_raise : forall p s tol, burn_of p 0 s tol = Err ValueError.
  Proof. reflexivity. Qed.

  (** ** C29 *)

  Notation wrapper := (jax_adam_wrapper pfinite gfinite pcast pzero adam lg).
  Notation warm_step s ws := (match ws with None => 5 * s | Some x => x end).

  (** Where the main burn starts, and the meaning of the status flag. *)
  Theorem C29_start_of_main_burn : forall p n_step n_warmup s wn ws tol fr flag,
    wrapper p n_step n_warmup s wn ws tol = Ok (fr, flag) ->
    exists p' l' f',
      burns (fun q => burn_of q wn (warm_step s ws) tol) p n_warmup p' l' f' /\
      (xlt tol l' -> pfinite p' = true -> burn_of p' n_step s tol = Ok fr) /\
      (xlt tol l' -> pfinite p' = false -> burn_of p n_step s tol = Ok fr) /\
      (~ xlt tol l' -> f' = Some fr) /\
      (flag = true <-> (n_step <= length (b_loss_arr fr))%nat).
  Proof.
    intros p n_step n_warmup s wn ws tol fr flag H.
    destruct (wrapper_start _ _ _ _ _ _ _ _ _ _ _ _ _ _ _ H) as (p' & l' & f' & A & B & C & D & E).
    exists p', l', f'. refine (conj A (conj B (conj C (conj _ E)))).
    intros HX. apply D. unfold xlt in HX. destruct (xltb tol l'); [contradiction|reflexivity].
  Qed.

  (** The returned loss is never larger than the initial one. *)
  Theorem C29_never_worse_than_start : forall p n_step n_warmup s wn ws tol r0,
    starts_at_input adam -> (forall q, lg (pcast q) = lg q) ->
    (forall q, pfinite q = true -> pfinite (pcast q) = true) ->
    (0 < n_step)%nat -> (0 < wn)%nat -> (0 < n_warmup)%nat \/ xlt tol PInf ->
    clean pfinite gfinite lg p -> fst (lg p) = Fin r0 ->
    exists fr flag, wrapper p n_step n_warmup s wn ws tol = Ok (fr, flag) /\
      clean pfinite gfinite lg (b_params fr) /\ fst (lg (b_params fr)) = b_loss fr /\
      exists r, b_loss fr = Fin r /\ r <= r0.
  Proof.
    intros p n_step n_warmup s wn ws tol r0 H1 H2 H3 H4 H5 H6 H7 H8.
    destruct (wrapper_improves pfinite gfinite pcast pzero adam lg H1 H2 H3 p n_step n_warmup s wn ws tol r0
                H4 H5 H6 H7 H8) as (fr & flag & A & (B & C & D) & _).
    exists fr, flag. auto.
  Qed.

  (** Without a tolerance, the flag is the documented one: it is set exactly when
      the main burn met no NaN or inf. *)
  Theorem C29_flag_without_tolerance : forall p n_step n_warmup s wn ws fr flag, (0 < n_step)%nat ->
    wrapper p n_step n_warmup s wn ws MInf = Ok (fr, flag) ->
    exists q, burn_of q n_step s MInf = Ok fr /\
      (flag = true <-> forall k, (k < n_step)%nat -> clean pfinite gfinite lg (vis s q k)).
  Proof. exact (wrapper_flag pfinite gfinite pcast pzero adam lg). Qed.

  (** No warm-up and an infinite tolerance: the results variable is unbound. *)
  Theorem C29_unbound_results : forall p n_step s wn ws tol, ~ xlt tol PInf ->
    wrapper p n_step 0 s wn ws tol = Err UnboundLocalError.
  Proof.
    intros p n_step s wn ws tol H. unfold jax_adam_wrapper. cbn [warmup bind]. unfold xlt in H.
    destruct (xltb tol PInf); [contradiction|reflexivity].
  Qed.

  (** ** C30 *)

  Variable minimize : (P -> xr) -> (P -> G) -> P -> P * xr * bool.

  Theorem C30_bfgs_used_iff_success_with_positive_loss : forall p n nw x f ok, (0 < n)%nat ->
    minimize (fun q => fst (lg q)) (fun q => snd (lg q)) p = (x, f, ok) ->
    let good := ok = true /\ exists r, f = Fin r /\ 0 < r in
    (good -> bfgs_adam_fallback pfinite gfinite pcast pzero adam lg minimize p n nw
             = Ok (x, f, true, 0%nat)) /\
    (~ good -> exists fr flag, wrapper p n nw (1 / 100) 50 None (Fin 0) = Ok (fr, flag) /\
       bfgs_adam_fallback pfinite gfinite pcast pzero adam lg minimize p n nw
       = Ok (b_params fr, b_loss fr, flag, 1%nat)).
  Proof.
    intros p n nw x f ok Hn HM.
    pose proof (fallback_iff pfinite gfinite pcast pzero adam lg minimize p n nw Hn) as H.
    rewrite HM in H. exact H.
  Qed.
End C28.
Print Assumptions C28_best_of_all_steps.
Print Assumptions C28_nan_after_first_step.
Print Assumptions C28_nan_at_first_step.
Print Assumptions C28_tolerance_reached.
Print Assumptions C28_cases_exhaustive.
Print Assumptions C28_zero_steps_raise.
Print Assumptions C29_start_of_main_burn.
Print Assumptions C29_never_worse_than_start.
Print Assumptions C29_flag_without_tolerance.
Print Assumptions C29_unbound_results.
Print Assumptions C30_bfgs_used_iff_success_with_positive_loss.

(** A trivial optimiser: gradient descent on the real line. *)
Definition descent (s : R) : optimizer xr xr xr :=
  mkOpt (fun p => p) (fun _ g st => xsub st (xmul (Fin s) g)) (fun st => st).

(** The documentation's "1 for a fit that terminates with no such problems"
    fails: the loss is constant 1, every value finite, tolerance 2 reached. *)
Theorem C29_flag_documentation_refuted : exists (lg : xr -> xr * xr) tol fr flag,
  (forall p, clean (fun _ => true) (fun _ => true) lg p) /\
  jax_adam_wrapper (fun _ => true) (fun _ => true) (fun p => p) (Fin 0) descent lg
    (Fin 5) 3 1 (1 / 100) 2 None tol = Ok (fr, flag) /\ flag = false.
Proof.
  exists (fun _ => (Fin 1, Fin 0)), (Fin 2). eexists. eexists. split.
  - intros p. split; [reflexivity|]. split; [exists 1; reflexivity|reflexivity].
  - unfold jax_adam_wrapper. cbn [warmup]. unfold jax_adam_wrapper_ at 1. cbn [adam_loop].
    cbn [xisfinite negb orb]. unfold xltb at 1. rewrite (proj2 (Rltb_true 1 2)) by lra.
    cbn [bind b_params b_loss]. unfold xltb. rewrite (proj2 (Rltb_false 2 1)) by lra.
    cbn [bind b_loss_arr app length]. split; reflexivity.
Qed.
Print Assumptions C29_flag_documentation_refuted.

(** A minimiser that finds a perfect fit, loss 0, is overruled by Adam. *)
Theorem C30_perfect_fit_kept_refuted : exists (lg : xr -> xr * xr) mini p x,
  mini (fun q => fst (lg q)) (fun q => snd (lg q)) p = (x, Fin 0, true) /\ fst (lg x) = Fin 0 /\
  exists y l flag, bfgs_adam_fallback (fun _ => true) (fun _ => true) (fun p => p) (Fin 0) descent lg mini
    p 1 0 = Ok (y, l, flag, 1%nat) /\ l <> Fin 0.
Proof.
  exists (fun q => (xmul q q, Fin 0)), (fun _ _ _ => (Fin 0, Fin 0, true)), (Fin 1), (Fin 0).
  split; [reflexivity|]. split; [cbn; f_equal; ring|].
  unfold bfgs_adam_fallback, scipy_lbfgs_wrapper. unfold xltb at 1.
  rewrite (proj2 (Rltb_false 0 0)) by lra. rewrite andb_false_r.
  unfold jax_adam_wrapper. cbn [warmup bind xltb]. unfold jax_adam_wrapper_. cbn [adam_loop].
  cbn [get_params descent opt_init xmul xisfinite negb orb xltb].
  rewrite (proj2 (Rltb_false (1 * 1) 0)) by lra. cbn.
  eexists. eexists. eexists. split; [reflexivity|]. injection. lra.
Qed.
Print Assumptions C30_perfect_fit_kept_refuted.

(** Hypotheses of C28-C30 are met by gradient descent on a constant loss. *)
Example C28_example : exists (lg : xr -> xr * xr), starts_at_input descent /\
  forall k, carries_on (fun _ => true) (fun _ => true) lg (Fin 0) (visited (descent 1) lg (Fin 5) k).
Proof.
  exists (fun _ => (Fin 1, Fin 0)). split; [intros s p; reflexivity|]. intros k. split.
  - split; [reflexivity|]. split; [exists 1; reflexivity|reflexivity].
  - cbn. apply Rltb_false. lra.
Qed.

(** ** C34 *)

Theorem C34_floor_passes_cut : forall lgm_min ms i m y,
  nth_error ms i = Some m -> nth_error (get_clipped_log_mah (map Fin ms) (Fin lgm_min)) i = Some y ->
  exists r, y = Fin r /\
    (m <= pow10 lgm_min -> r = log10 (pow10 lgm_min + 1 / 10000000)) /\
    (pow10 lgm_min < m -> r = log10 m) /\ lgm_min < r.
Proof. exact clip_entry. Qed.
Print Assumptions C34_floor_passes_cut.

(** Hence the cut at [lgm_min] removes no point: the targets are those of a cut at
    minus infinity. *)
Theorem C34_cut_without_effect : forall ts ms lgm_min cut tmin,
  let log_mah := get_clipped_log_mah (map Fin ms) (Fin lgm_min) in
  get_target_data ts log_mah (Fin lgm_min) cut tmin = get_target_data ts log_mah MInf cut tmin.
Proof. exact cut_without_effect. Qed.
Print Assumptions C34_cut_without_effect.

Theorem C34_zero_mass_without_floor : forall ms i m, 0 <= m -> nth_error ms i = Some m ->
  nth_error (get_clipped_log_mah (map Fin ms) MInf) i = Some (Fin (if Req_EM_T m 0 then -7 else log10 m)).
Proof. exact clip_minus_inf. Qed.
Print Assumptions C34_zero_mass_without_floor.

(** ** C62 *)

(** The reported loss is the mean squared residual of the returned parameters,
    and a fit by Adam is at least as good as its starting point (the default
    parameters with the halo's final mass and t_peak). *)
Theorem C62_reported_loss :
  forall St f4 (adam : Adam St) (mini : Minimizer) c t m lgm_min cut tmin nstep nwarm tpf force fr l0 tp,
  rounding f4 c -> starts_at_input adam -> honest_minimizer mini ->
  (0 < nstep)%nat -> (forall x, In x t -> 0 < x) ->
  last_is (floored lgm_min m) l0 -> 0 < c l0 < 17 ->
  wanted_t_peak c t (floored lgm_min m) l0 tpf tp -> 5 / 100 < c tp < 20 ->
  diffmah_fitter f4 adam mini (map Fin t) (map Fin m) (lgm_arg lgm_min) (Fin cut) (Fin tmin)
    nstep nwarm (option_map Fin tpf) force = Ok fr ->
  skip_fit fr = false ->
  exists q tlast ts ys, p_best fr = inject q /\ last_is t tlast /\
    t_target (loss_data fr) = map Fin ts /\ log_mah_target (loss_data fr) = map Fin ys /\
    let resid p := mean_sq_residual p (c (log10 tlast)) (combine (map c ts) (map c ys)) in
    loss_best fr = Fin (resid q) /\
    (code_used fr = 1%Z ->
       let p0 := mkParams (c l0) (c (5 / 100)) (c (26137643 / 10000000)) (c (12692805 / 100000000)) (c tp) in
       let u0 := get_unbounded_mah_params p0 in
       (* the unbounded starting parameters are single-precision numbers *)
       (forall x, In x [u_logm0 u0; u_logtc u0; u_early_index u0; u_late_index u0] -> c x = x) ->
       resid q <= resid p0).
Proof.
  intros St f4 adam mini c t m g cut tmin ns nw tpf force fr l0 tp HR HA HM Hn Hp HL Hl Hw Ht H HS.
  destruct (fitter_finite f4 c adam mini HR HA HM t m g cut tmin ns nw tpf force fr l0 tp)
    as (q & tl & ts & ys & A & _ & _ & B & C & D & E & F); auto.
  { intros tp' Hw'. exact (wanted_fun _ _ _ _ _ _ _ Hw' Hw). }
  exists q, tl, ts, ys. refine (conj A (conj B (conj C (conj D (conj E _))))).
  intros HC p0 u0 HX. apply F; [exact HC|].
  unfold vmap4, varied_of. cbn [v_logm0 v_logtc v_early v_late].
  f_equal; apply HX; cbn; auto.
Qed.
Print Assumptions C62_reported_loss.

(** ** A concrete fit meeting the hypotheses above *)

Definition ex_t : list R := [1; 2; 3; 4].
Definition ex_m : list R := [pow10 11; pow10 12; pow10 13; pow10 14].

(** Optimisers that satisfy the hypotheses: one that never moves, and one that
    returns its starting point and reports failure. *)
Definition ex_adam : Adam (Varied xr) := fun _ => mkOpt (fun p => p) (fun _ _ st => st) (fun st => st).
Definition ex_mini : Minimizer := fun L _ p => (p, L p, false).

Lemma ex_floored : floored None ex_m = [11; 12; 13; 14].
Proof.
  unfold floored, ex_m, floored_logmass, mass_floor. cbn [map].
  repeat match goal with |- context [Rle_dec (pow10 ?k) 0] =>
    let H := fresh in pose proof (pow10_pos k) as H; destruct (Rle_dec (pow10 k) 0); [lra|clear H]; rewrite (log10_pow10 k) end.
  reflexivity.
Qed.

Example C22_to_C62_example :
  rounding (fun x => x) (fun r => r) /\ starts_at_input ex_adam /\ honest_minimizer ex_mini /\
  (forall x, In x ex_t -> 0 < x) /\ last_is (floored None ex_m) 14 /\
  wanted_t_peak (fun r => r) ex_t (floored None ex_m) 14 None 4 /\
  exists fr, diffmah_fitter (fun x => x) ex_adam ex_mini (map Fin ex_t) (map Fin ex_m) (lgm_arg None)
    (Fin 10) (Fin 1) 200 1 (option_map Fin None) false = Ok fr /\ skip_fit fr = false.
Proof.
  assert (HR : rounding (fun x => x) (fun r => r)).
  { split; [intros r; reflexivity|]. split; [reflexivity|].
    intros r. replace (r - r) with 0 by ring. rewrite Rabs_R0. pose proof (Rabs_pos r). lra. }
  assert (HP : forall x, In x ex_t -> 0 < x).
  { intros x H. cbn in H. intuition lra. }
  refine (conj HR (conj _ (conj _ (conj HP (conj _ (conj _ _)))))).
  - intros s p. reflexivity.
  - intros L g p x f H. injection H. discriminate.
  - rewrite ex_floored. exists [11; 12; 13]. reflexivity.
  - rewrite ex_floored. exists 3%nat. split; [reflexivity|]. split; [exists 14; auto|].
    intros j x Hj Hx. destruct j as [|[|[|j]]]; cbn in Hx; try (injection Hx as <-; lra). lia.
  - destruct (fitter_total (fun x => x) ex_adam ex_mini (map Fin ex_t) (map Fin ex_m) (lgm_arg None)
      (Fin 10) (Fin 1) 200 1 (option_map Fin None) false) as (fr & E); [lia|reflexivity|discriminate|].
    exists fr. split; [exact E|].
    destruct (fitter_target _ _ _ _ (proj1 HR) ex_t ex_m None 10 1 200 1 None false fr HP E)
      as (l0 & sel & r & H0 & H1 & H2 & _ & H4 & _).
    rewrite ex_floored in *.
    assert (HS : sel = [(1, 11); (2, 12); (3, 13); (4, 14)]).
    { rewrite (last_fun _ _ _ H0 (ex_intro _ [11; 12; 13] eq_refl : last_is [11; 12; 13; 14] 14)) in H1.
      apply (subsequence_unique _ _ _ _ H1). unfold fit_point, above, ex_t. cbn [combine].
      repeat (apply sub_keep; [cbn; lra|]). apply sub_nil. }
    subst sel. cbn [map snd] in H2.
    assert (Hr : r = [11; 12; 13; 14]).
    { apply (running_max_fun _ _ _ H2). split; [reflexivity|]. intros i v Hv. split.
      - exists i. auto.
      - intros j w Hj Hw. destruct i as [|[|[|[|i]]]]; cbn in Hv; try (destruct i; discriminate);
          destruct j as [|[|[|[|j]]]]; cbn in Hw; try (destruct j; discriminate); try lia;
          injection Hv as <-; injection Hw as <-; lra. }
    subst r.
    destruct (skip_fit fr) eqn:ES; [|reflexivity]. exfalso.
    apply (proj1 (fitter_skip _ _ _ _ _ _ _ _ _ _ _ _ _ E)) in ES.
    destruct ES as [ES|(n & Hn & Hlt)]; [discriminate|]. rewrite H4 in Hn.
    assert (HC : count_below_last xlt (map Fin [11; 12; 13; 14]) 3).
    { right. exists (Fin 14). split; [exists [Fin 11; Fin 12; Fin 13]; reflexivity|].
      exists [Fin 11; Fin 12; Fin 13]. split; [|reflexivity]. cbn [map].
      repeat (apply sub_keep; [apply Rltb_true; lra|]). apply sub_drop; [|apply sub_nil].
      intros HX. apply Rltb_true in HX. lra. }
    rewrite (count_below_fun _ _ _ _ Hn HC) in Hlt. lia.
Qed.
