(** C80: the gradients of the losses of single population components. *)

From Coq Require Import Reals String List Bool Arith Lia Lra.
From Coquelicot Require Import Coquelicot.
From Verif Require Import Model_Num RealAux Model_Base Model_Kernels Model_Utils Model_PopBase Model_PopData
  Model_PopParams Model_PopKernels Model_PopMC Model_CompFit Model_Grad Model_CompGrad Spec_Utils Spec_Pop Spec_PopMC
  Spec_TruncNorm Spec_Grad Spec_CompFit Spec_CompGrad Proofs_Kernels Proofs_PopBase Proofs_PopParams Proofs_PopAll
  Proofs_PopKernels Proofs_PopTpeak Proofs_CompFit Proofs_CompGrad Proofs_PopMass Proofs_GradEx Proofs_GradEx2 Proofs_GradEx3
  Proofs_CompGradEx.
Import ListNotations.
Local Open Scope R_scope.
Local Open Scope string_scope.

(** The index and critical-time losses, called with an array of unbounded
    parameters that stand for [p], return their value and exact partial
    derivatives, unless a predicted critical time is exactly at a clip. *)
Theorem C80_index_loss_gradient : forall f us (pts : list (R * R * R * R)) p,
  length us = length (c_pdict (index_component f)) -> pts <> [] ->
  get_bounded_params (index_component f)
    (combine (map (fun k => "u_" ++ k) (map fst (c_pdict (index_component f)))) us) = Ok p ->
  (forall lgm t tp y, In (lgm, t, tp, y) pts -> off_clip_index f p lgm t tp) ->
  exact_gradient_arr (fun u => uparam_loss_kern (index_component f) (index_kernel f) (PArr u) (columns4 pts)) us
    (index_loss_and_grads_kern f us (columns4 pts)).
Proof. exact index_grad. Qed.
Print Assumptions C80_index_loss_gradient.

(** At parameters that predict every target, every entry of that gradient is 0. *)
Theorem C80_perfect_fit_is_stationary : forall f us (pts : list (R * R * R * R)) p,
  length us = length (c_pdict (index_component f)) -> pts <> [] ->
  get_bounded_params (index_component f)
    (combine (map (fun k => "u_" ++ k) (map fst (c_pdict (index_component f)))) us) = Ok p ->
  (forall lgm t tp y, In (lgm, t, tp, y) pts -> off_clip_index f p lgm t tp) ->
  (forall lgm t tp y, In (lgm, t, tp, y) pts -> index_kernel f p lgm t tp = Ok y) ->
  exists grad, index_loss_and_grads_kern f us (columns4 pts) = Ok (0, grad) /\ length grad = length us /\
    forall i, (i < length us)%nat -> nth i grad 0 = 0.
Proof. exact index_stationary. Qed.
Print Assumptions C80_perfect_fit_is_stationary.

(** The z=0 mass losses, called with a namedtuple, unless a prediction is
    exactly at its floor. *)
Theorem C80_mass_loss_gradient : forall c s comp p (sets : list (list (R * R * R))),
  In (c, s, comp) mass_files -> provides comp p -> (forall pts, In pts sets -> pts <> []) ->
  (forall pts t tp y, In pts sets -> In (t, tp, y) pts -> off_clip_mass c s p t tp) ->
  exact_gradient (fun q => global_loss_kern (mass_kernel c s) (PTup q) (map columns3 sets)) p
    (global_loss_and_grads_kern c s p (map columns3 sets)).
Proof. exact mass_grad. Qed.
Print Assumptions C80_mass_loss_gradient.

(** The loss of the central peak-time fractions, a mean of absolute differences,
    unless one of these is exactly 0. *)
Theorem C80_multimass_loss_gradient : forall p (rows : list (list (R * R) * R * R)),
  provides TPCENS_FLEX p -> (exists pts lgm t, In (pts, lgm, t) rows /\ pts <> []) ->
  (forall pts lgm t u y, In (pts, lgm, t) rows -> In (u, y) pts -> misses p lgm t u y) ->
  exact_gradient (fun q => loss_multimass (PTup q) (map mass_row rows)) p (loss_and_grad_multimass p (map mass_row rows)).
Proof. exact multimass_grad. Qed.
Print Assumptions C80_multimass_loss_gradient.

(** The loss of the midpoint of one curve of peak-time fractions, always. *)
Theorem C80_curve_loss_gradient : forall u0 (pts : list (R * R)), pts <> [] ->
  exact_gradient_arr (fun p => flex_loss p (columns2 pts)) [u0] (flex_loss_and_grad [u0] (columns2 pts)).
Proof. exact flex_grad. Qed.
Print Assumptions C80_curve_loss_gradient.

(** The losses of the density of peak times, for data inside the support and a
    truncated normal density that is itself differentiated correctly. *)
Theorem C80_density_loss_gradient : forall F us (pts : list (R * R)), exact_truncnorm_pdf F ->
  length us = 2%nat -> pts <> [] -> (forall u w, In (u, w) pts -> 1/10 < u < 1) ->
  exact_gradient_arr (fun u => utp_loss_kern truncnorm_pdf_R (PArr u) (columns2 pts)) us
    (utp_loss_and_grads_kern F us (columns2 pts)).
Proof. intros F us pts HF. exact (utp_grad F HF us pts). Qed.
Print Assumptions C80_density_loss_gradient.

Theorem C80_central_density_loss_gradient : forall F us (pts : list (R * R)) t0, exact_truncnorm_pdf F ->
  length us = 2%nat -> pts <> [] -> 0 < t0 -> (forall tp w, In (tp, w) pts -> t0 / 10 < tp < t0) ->
  exact_gradient_arr (fun u => tp_cens_loss_kern truncnorm_pdf_R (PArr u) (columns2 pts, t0)) us
    (tp_cens_loss_and_grads_kern F us (columns2 pts, t0)).
Proof. intros F us pts t0 HF. exact (tp_cens_grad F HF us pts t0). Qed.
Print Assumptions C80_central_density_loss_gradient.

(** ** Concrete cases *)

Example C80_example_density : exact_truncnorm_pdf truncnorm_pdf_dual.
Proof. exact truncnorm_pdf_dual_exact. Qed.

(** The unbounded published parameters of every file, and one halo. *)
Example C80_example_index : forall f, exists us p, length us = length (c_pdict (index_component f)) /\
  get_bounded_params (index_component f)
    (combine (map (fun k => "u_" ++ k) (map fst (c_pdict (index_component f)))) us) = Ok p /\
  off_clip_index f p 12 10 (1/2).
Proof. exact index_example. Qed.

Example C80_example_mass : forall c s comp, In (c, s, comp) mass_files ->
  provides comp ALL_PDICT /\
  off_clip_mass c s ALL_PDICT 10 (if String.eqb s "_early" then 1/2 else if String.eqb s "_late" then 1/2 else 1001/1000).
Proof. exact mass_example. Qed.

(** No predicted fraction is 0, so that a measured fraction of 0 is missed. *)
Example C80_example_multimass : forall lgm t u, provides TPCENS_FLEX ALL_PDICT /\ misses ALL_PDICT lgm t u 0.
Proof. exact multimass_example. Qed.
