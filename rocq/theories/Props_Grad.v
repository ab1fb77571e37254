(** Gradients of the population losses (C79). *)

From Coq Require Import Reals String List Lra.
From Coquelicot Require Import Coquelicot.
From Verif Require Import Model_Num Model_Base Model_Kernels Model_PopBase Model_PopData Model_PopParams
  Model_PopKernels Model_PopMC Model_Grad Spec_Utils Spec_Pop Spec_PopMC Spec_TruncNorm Spec_Grad
  Proofs_PopMass Proofs_PopAD8 Proofs_PopAD9 Proofs_CholAD Proofs_GradZero Proofs_GradEx Proofs_GradEx2 Proofs_GradEx3.
Import ListNotations.
Local Open Scope R_scope.
Local Open Scope string_scope.

Section C79.
  (** [F] differentiates the truncated normal distribution; the random numbers
      are arbitrary. *)
  Context (F : Dual R -> Dual R -> Dual R -> Dual R -> Dual R -> Dual R) (HF : exact_truncnorm F).
  Context (unif : key -> R) (unifs normal : key -> nat -> R).
  Let G : rng R := jax_rng unif unifs normal.

  (** Away from the switches of the code, the loss-and-gradient function of the
      satellites returns the loss, and for every parameter its partial
      derivative. *)
  Theorem C79_satellite_loss_gradient : forall p bins k lgt0,
    smooth_pop p -> regular_bins unif unifs normal Sat p bins k lgt0 -> well_shaped bins ->
    let loss := fun q => fst (loss_mah_moments_multibin truncnorm_cdf_R G Sat q bins k lgt0) in
    exists value grad,
      loss_and_grads_mah_moments_multibin_sats F unif unifs normal p bins k lgt0 = Ok (value, grad) /\
      loss p = Ok value /\ fields grad = fields p /\
      forall name, In name (fields p) -> exists D, getattr grad name = Ok D /\
        returns_with_derivative (fun h => loss (vary p name h)) value D.
  Proof.
    intros p bins k lgt0 HS HR HW loss. apply (grad_exact loss). intros v.
    apply (rel_multibin F HF unif unifs normal 0 (line p v) (seed p v) (rt_line p v)); rewrite ?line_0; assumption.
  Qed.

  (** The same for the centrals, whose loss is a function of the unbounded
      parameters [u]; [p] is what they stand for. *)
  Theorem C79_central_u_loss_gradient : forall u bins k lgt0 default full p,
    DEFAULT_DIFFMAHPOP_U_PARAMS = Ok default -> replace default u = Ok full ->
    get_diffmahpop_params_from_u_params full = Ok p ->
    smooth_pop p -> regular_bins unif unifs normal Cen p bins k lgt0 -> well_shaped bins ->
    let loss := fun q => fst (loss_mah_moments_multibin_u_params truncnorm_cdf_R G q bins k lgt0) in
    exists value grad,
      loss_and_grads_mah_moments_multibin_cens F unif unifs normal u bins k lgt0 = Ok (value, grad) /\
      loss u = Ok value /\ fields grad = fields u /\
      forall name, In name (fields u) -> exists D, getattr grad name = Ok D /\
        returns_with_derivative (fun h => loss (vary u name h)) value D.
  Proof.
    intros u bins k lgt0 d u' p Ed Eu Ep HS HR HW loss. apply (grad_exact loss). intros v.
    apply (rel_u_loss F HF unif unifs normal lgt0 (line u v) (seed u v) 0 bins k d u' p); rewrite ?line_0; try assumption.
    apply rt_line.
  Qed.

  (** The joint loss: any subset [varied] of the parameters is differentiated,
      the others keep their published values. *)
  Theorem C79_censat_loss_gradient : forall varied bins_cens bins_sats k lgt0 default p,
    DEFAULT_DIFFMAHPOP_PARAMS = Ok default -> replace default varied = Ok p ->
    smooth_pop p ->
    regular_bins unif unifs normal Cen p bins_cens (Split k 2 0) lgt0 -> well_shaped bins_cens ->
    regular_bins unif unifs normal Sat p bins_sats (Split k 2 1) lgt0 -> well_shaped bins_sats ->
    let loss := fun q => fst (loss_mah_moments_multibin_censat truncnorm_cdf_R G q bins_cens bins_sats k lgt0) in
    exists value grad,
      loss_and_grads_mah_moments_multibin_censat F unif unifs normal varied bins_cens bins_sats k lgt0
        = Ok (value, grad) /\
      loss varied = Ok value /\ fields grad = fields varied /\
      forall name, In name (fields varied) -> exists D, getattr grad name = Ok D /\
        returns_with_derivative (fun h => loss (vary varied name h)) value D.
  Proof.
    intros u bc bs k lgt0 d p Ed Eu HS HRc HWc HRs HWs loss. apply (grad_exact loss). intros v.
    apply (rel_censat F HF unif unifs normal lgt0 (line u v) (seed u v) 0 bc bs k d p); rewrite ?line_0; try assumption.
    apply rt_line.
  Qed.

  Theorem C79_censat_u_loss_gradient : forall u bins_cens bins_sats k lgt0 default_u full_u q default p,
    DEFAULT_DIFFMAHPOP_U_PARAMS = Ok default_u -> replace default_u u = Ok full_u ->
    get_diffmahpop_params_from_u_params full_u = Ok q ->
    DEFAULT_DIFFMAHPOP_PARAMS = Ok default -> replace default q = Ok p ->
    smooth_pop p ->
    regular_bins unif unifs normal Cen p bins_cens (Split k 2 0) lgt0 -> well_shaped bins_cens ->
    regular_bins unif unifs normal Sat p bins_sats (Split k 2 1) lgt0 -> well_shaped bins_sats ->
    let loss := fun q => fst (loss_mah_moments_multibin_censat_u_params truncnorm_cdf_R G q bins_cens bins_sats
                                k lgt0) in
    exists value grad,
      loss_and_grads_mah_moments_multibin_censat_u_params F unif unifs normal u bins_cens bins_sats k lgt0
        = Ok (value, grad) /\
      loss u = Ok value /\ fields grad = fields u /\
      forall name, In name (fields u) -> exists D, getattr grad name = Ok D /\
        returns_with_derivative (fun h => loss (vary u name h)) value D.
  Proof.
    intros u bc bs k lgt0 d u' p d' p' Ed Eu Ep Ed' Ep' HS HRc HWc HRs HWs loss. apply (grad_exact loss). intros v.
    apply (rel_censat_u F HF unif unifs normal lgt0 (line u v) (seed u v) 0 bc bs k d u' p d' p'); rewrite ?line_0;
      try assumption.
    apply rt_line.
  Qed.
End C79.
Print Assumptions C79_satellite_loss_gradient.
Print Assumptions C79_central_u_loss_gradient.
Print Assumptions C79_censat_loss_gradient.
Print Assumptions C79_censat_u_loss_gradient.

(** At the published parameters the hypotheses hold for one bin of halos of
    10^12 Msun with any targets, random numbers of which one is not 0, and the
    actual derivative of the truncated normal distribution. *)
Example C79_example_bins : forall g mean std fp k,
  exact_truncnorm truncnorm_dual /\ DEFAULT_DIFFMAHPOP_PARAMS = Ok ALL_PDICT /\ smooth_pop ALL_PDICT /\
  regular_bins UNIF UNIFS NORMAL g ALL_PDICT [mkBin [10] 12 10 [mean] [std] [fp]] k 1 /\
  well_shaped [mkBin [10] 12 10 [mean] [std] [fp]].
Proof.
  intros g mean std fp k.
  exact (conj truncnorm_dual_exact (conj published_pdict (conj all_smooth
    (conj (bins_regular g mean std fp k) (bins_shaped mean std fp))))).
Qed.

Example C79_example_u_params : exists default u,
  DEFAULT_DIFFMAHPOP_U_PARAMS = Ok default /\ replace default u = Ok u /\
  get_diffmahpop_params_from_u_params u = Ok ALL_PDICT /\ replace ALL_PDICT ALL_PDICT = Ok ALL_PDICT.
Proof.
  destruct published_u as (d & u & H1 & H2 & H3 & _). exists d, u. exact (conj H1 (conj H2 (conj H3 all_self))).
Qed.

(** The loss of that bin has a derivative for every published parameter and the
    code returns it, e.g. that for the correlation of logtc and logm0. *)
Example C79_example_satellites : exists value grad D,
  loss_and_grads_mah_moments_multibin_sats truncnorm_dual UNIF UNIFS NORMAL ALL_PDICT
    [mkBin [10] 12 10 [12] [1/2] [0]] (Seed 0) 1 = Ok (value, grad) /\
  getattr grad "rho_logtc_logm0" = Ok D /\
  returns_with_derivative
    (fun h => fst (loss_mah_moments_multibin truncnorm_cdf_R (jax_rng UNIF UNIFS NORMAL) Sat
                     (vary ALL_PDICT "rho_logtc_logm0" h) [mkBin [10] 12 10 [12] [1/2] [0]] (Seed 0) 1))
    value D.
Proof.
  destruct (C79_satellite_loss_gradient truncnorm_dual truncnorm_dual_exact UNIF UNIFS NORMAL ALL_PDICT
    _ (Seed 0) 1 all_smooth (bins_regular Sat 12 (1/2) 0 (Seed 0)) (bins_shaped 12 (1/2) 0))
    as (value & grad & E & _ & _ & H).
  destruct (H "rho_logtc_logm0") as (D & ED & HD); [cbn; tauto|].
  exists value, grad, D. exact (conj E (conj ED HD)).
Qed.

(** Two tied draws have a positive definite covariance with a non-zero
    correlation. *)
Example C79_example_posdef :
  let M := fun i j => if Nat.eqb i j then 1 else 1/2 in
  (forall i j, (i < 2)%nat -> (j < 2)%nat -> M i j = M j i) /\ posdef 2 M.
Proof.
  cbv zeta. split.
  - intros i j _ _. now rewrite Nat.eqb_sym.
  - apply corr_2_posdef.
Qed.

(** The Cholesky factor through which the scatter is differentiated. *)
Theorem C79_cholesky_factor : forall n M,
  (forall i j, (i < n)%nat -> (j < n)%nat -> M i j = M j i) -> posdef n M ->
  let L := cholesky n M in
  (forall i j, (i < j)%nat -> L i j = 0) /\ (forall i, (i < n)%nat -> 0 < L i i) /\
  (forall i j, (i < n)%nat -> (j < n)%nat -> sum_below n (fun k => L i k * L j k) = M i j).
Proof. exact cholesky_factor. Qed.
Print Assumptions C79_cholesky_factor.

(** [smooth_pop] is needed.  At a correlation of logm0 and logtc that is exactly
    zero, [jnp.where(M == 0, M.T, M)] makes the derivative of the scatter drawn
    for logtc come out as half of what it is. *)
Theorem C79_zero_correlation_halved : forall unif unifs normal k p m,
  legal_pop p -> val p "rho_logtc_logm0" = 0 ->
  exists C c s, 0 < s /\
    (forall h, get_diffmahpop_cov (vary p "rho_logtc_logm0" h) m = Ok (C h)) /\
    get_diffmahpop_cov (seed p (along "rho_logtc_logm0")) (dlift m) = Ok c /\
    is_derive (fun h => nth 1 (deviation (jax_rng unif unifs normal) k (C h)) 0) 0 (s * normal k 0%nat) /\
    dder (nth 1 (deviation (jax_rng unif unifs normal) k c) (dlift 0)) = s * normal k 0%nat / 2.
Proof.
  intros unif unifs normal k p m HL HZ.
  destruct (zero_correlation unif unifs normal k p m HL HZ) as (C & c & s & Hs & EC & Rest).
  exists C, c, s. refine (conj Hs (conj _ Rest)). intros h. rewrite <- vary_line. apply EC.
Qed.
Print Assumptions C79_zero_correlation_halved.

Theorem C79_zero_correlation_refuted : exists p m unif unifs normal k C c D, legal_pop p /\
  (forall h, get_diffmahpop_cov (vary p "rho_logtc_logm0" h) m = Ok (C h)) /\
  get_diffmahpop_cov (seed p (along "rho_logtc_logm0")) (dlift m) = Ok c /\
  is_derive (fun h => nth 1 (deviation (jax_rng unif unifs normal) k (C h)) 0) 0 D /\
  dder (nth 1 (deviation (jax_rng unif unifs normal) k c) (dlift 0)) <> D.
Proof.
  destruct zero_legal as [HL HZ].
  destruct (zero_correlation (fun _ => 0) (fun _ _ => 0) (fun _ _ => 1) (Seed 0) ZERO_PDICT 12 HL HZ)
    as (C & c & s & Hs & EC & Ec & HD & Hd).
  exists ZERO_PDICT, 12, (fun _ => 0), (fun _ _ => 0), (fun _ _ => 1), (Seed 0), C, c, (s * 1).
  refine (conj HL (conj _ (conj Ec (conj HD _)))); [intros h; rewrite <- vary_line; apply EC|]. rewrite Hd. lra.
Qed.
Print Assumptions C79_zero_correlation_refuted.
