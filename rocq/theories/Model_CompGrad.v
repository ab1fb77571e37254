(** The loss-and-gradient functions of single population components:
    jax.value_and_grad of the losses of Model_CompFit.v, on dual numbers as in
    Model_Grad.v. *)

From Coq Require Import Reals String List Bool Arith.
From Verif Require Import Model_Num Model_Base Model_PopBase Model_PopData Model_PopParams Model_PopKernels
  Model_PopMC Model_CompFit Model_Grad.
Import ListNotations.
Local Open Scope string_scope.

(** Data arguments do not vary. *)
Definition lift_arg (a : arg R) : arg (Dual R) :=
  match a with Num1 x => Num1 (dlift x) | Arr l => Arr (map dlift l) end.

(** The entries of an array as duals of which entry [i] varies. *)
Definition seed_entry (l : list R) (i : nat) : list (Dual R) :=
  map (fun j => mkDual (nth j l 0%R) (if (j =? i)%nat then 1%R else 0%R)) (seq 0 (length l)).

(** [value_and_grad(f)(x)] for an array [x]: the value, and the array of the
    derivatives. *)
Definition value_and_grad_arr (f : list (Dual R) -> res (Dual R)) (l : list R) : res (R * list R) :=
  let* v := f (map dlift l) in
  let* g := mapM (fun i => let* d := f (seed_entry l i) in Ok (dder d)) (seq 0 (length l)) in
  Ok (dval v, g).

(** The files early_index_alpha.py, early_index_beta.py, early_index_pop.py,
    logtc_early.py and logtc_late.py: their parameters and their kernel. *)
Inductive index_file := EarlyAlpha | EarlyBeta | EarlyPop | LogtcEarly | LogtcLate.
Definition index_component (f : index_file) : component :=
  match f with
  | EarlyAlpha => EARLY_INDEX_ALPHA | EarlyBeta => EARLY_INDEX_BETA | EarlyPop => EARLY_INDEX_POP
  | LogtcEarly => LOGTC_EARLY | LogtcLate => LOGTC_LATE
  end.
Definition index_kernel {A} {N : Num A} (f : index_file) : rec A -> A -> A -> A -> res A :=
  match f with
  | EarlyAlpha => pred_early_index_kern "_alpha"
  | EarlyBeta => pred_early_index_kern "_beta"
  | EarlyPop => pred_early_index_kern ""
  | LogtcEarly => pred_logtc_kern "_early"
  | LogtcLate => pred_logtc_kern "_late"
  end.

(** early_index_alpha.py:113, early_index_beta.py:113, early_index_pop.py:113,
    logtc_early.py:78, logtc_late.py:78, called with an array as the fitters
    do *)
Definition index_loss_and_grads_kern (f : index_file) (u_params : list R)
  (loss_data : arg R * arg R * arg R * arg R) : res (R * list R) :=
  let '(lgm_obs, t_obs, t_peak, target) := loss_data in
  value_and_grad_arr
    (fun u => uparam_loss_kern (index_component f) (index_kernel f) (PArr u)
                (lift_arg lgm_obs, lift_arg t_obs, lift_arg t_peak, lift_arg target)) u_params.

(** The files bimod_logm0_kernels/logm0_c*_*.py and bimod_logm0_sats/logm0_c*_*.py. *)
Inductive mass_coef := C0 | C1.
Definition mass_kernel {A} {N : Num A} (c : mass_coef) (s : string) : rec A -> A -> A -> res A :=
  match c with C0 => pred_c0_kern s | C1 => pred_c1_kern s end.

(** bimod_logm0_kernels/logm0_c0_early.py:77, logm0_c0_late.py:77,
    logm0_c1_early.py:88, logm0_c1_late.py:88, bimod_logm0_sats/logm0_c0_early.py:80,
    logm0_c0_late.py:80, logm0_c1_early.py:88, logm0_c1_late.py:88, called with a
    namedtuple *)
Definition global_loss_and_grads_kern (c : mass_coef) (s : string) (params : rec R)
  (global_loss_data : list (arg R * arg R * arg R)) : res (R * rec R) :=
  value_and_grad
    (fun p => global_loss_kern (mass_kernel c s) (PTup p)
       (map (fun d => let '(t_obs, t_peak, target) := d in (lift_arg t_obs, lift_arg t_peak, lift_arg target))
          global_loss_data)) params.

(** tp_pdf_cens_flex.py:143 *)
Definition loss_and_grad_multimass (params : rec R) (rows : list (list R * list R * R * R)) : res (R * rec R) :=
  value_and_grad
    (fun p => loss_multimass (PTup p)
       (map (fun r => let '(utp, y, lgm, t) := r in (map dlift utp, map dlift y, dlift lgm, dlift t)) rows)) params.

(** tp_pdf_cens_flex.py:154 *)
Definition flex_loss_and_grad (params : list R) (loss_data : arg R * arg R) : res (R * list R) :=
  let '(utp, y) := loss_data in
  value_and_grad_arr (fun p => flex_loss p (lift_arg utp, lift_arg y)) params.

Section Density.
  (** The density of jax.scipy.stats.truncnorm, for duals (external). *)
  Context (truncnorm_pdf : Dual R -> Dual R -> Dual R -> Dual R -> Dual R -> Dual R).

  (** utp_pdf_kernels.py:97 *)
  Definition utp_loss_and_grads_kern (u_params : list R) (loss_data : arg R * arg R) : res (R * list R) :=
    let '(x, pdf) := loss_data in
    value_and_grad_arr (fun u => utp_loss_kern truncnorm_pdf (PArr u) (lift_arg x, lift_arg pdf)) u_params.

  (** tp_pdf_cens.py:141 *)
  Definition tp_cens_loss_and_grads_kern (u_params : list R) (loss_data : arg R * arg R * R) : res (R * list R) :=
    let '(t_peak, pdf, t_0) := loss_data in
    value_and_grad_arr (fun u => tp_cens_loss_kern truncnorm_pdf (PArr u) (lift_arg t_peak, lift_arg pdf, dlift t_0))
      u_params.
End Density.
