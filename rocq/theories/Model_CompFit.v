(** The losses and fitters of single population components: logm0_c0_*.py and
    logm0_c1_*.py, early_index_*.py, logtc_*.py, utp_pdf_kernels.py,
    tp_pdf_cens.py and tp_pdf_cens_flex.py. *)

From Coq Require Import Reals String List Bool Arith.
From Verif Require Import Model_Num Model_Base Model_Kernels Model_Utils Model_PopBase Model_PopData
  Model_PopKernels Model_PopMC Model_Adam.
Import ListNotations.
Local Open Scope num_scope.

(** The first argument of a loss: a namedtuple or an array.  scipy's minimize
    turns its starting point into an array and passes arrays to the loss
    (bfgs_wrapper.py:33-42); so does the Adam wrapper (fit_utils.py:159). *)
Inductive pyparams (A : Type) : Type :=
| PArr (l : list A)
| PTup (p : rec A).
Arguments PArr {A} _.
Arguments PTup {A} _.

(** [*params]: the entries of an array or of a namedtuple. *)
Definition star {A} (p : pyparams A) : list A :=
  match p with PArr l => l | PTup r => values r end.

(** The object whose attributes a kernel reads: an array has no attribute with
    the name of a parameter.  Every kernel reads an attribute before it does
    anything else, so the error is raised here. *)
Definition with_fields {A} (p : pyparams A) : res (rec A) :=
  match p with PArr _ => Err AttributeError | PTup r => Ok r end.

(** A data argument: a number or a one-dimensional array. *)
Inductive arg (A : Type) : Type :=
| Num1 (a : A)
| Arr (l : list A).
Arguments Num1 {A} _.
Arguments Arr {A} _.

(** Broadcasting: all arrays must have the same length, numbers are repeated.
    (Arrays of length 1 would also be repeated, which is left out.) *)
Definition lengths {A} (args : list (arg A)) : list nat :=
  flat_map (fun x => match x with Num1 _ => [] | Arr l => [length l] end) args.
Definition extent {A} (args : list (arg A)) : res nat :=
  match lengths args with
  | [] => Ok 1%nat
  | n :: r => if forallb (Nat.eqb n) r then Ok n else Err TypeError
  end.

Fixpoint collect {A B} (f : A -> res B) (l : list A) : res (list B) :=
  match l with
  | [] => Ok []
  | a :: r => let* b := f a in let* bs := collect f r in Ok (b :: bs)
  end.

Section Losses.
  Context {A : Type} {N : Num A}.

  Definition entry (x : arg A) (i : nat) : A :=
    match x with Num1 a => a | Arr l => nth i l #0 end.

  Definition column (x : arg A) (n : nat) : list A := map (entry x) (seq 0 n).

  (** ** z=0 mass: logm0_c0_early.py:56-79, logm0_c1_early.py and the six copies

      [pred] is _pred_c0_kern or _pred_c1_kern of the file. *)

  (** logm0_c0_early.py:62-66 *)
  Definition loss_kern_scalar (pred : rec A -> A -> A -> res A) (params : pyparams A)
      (loss_data : arg A * arg A * arg A) : res A :=
    let '(t_obs, t_peak, target) := loss_data in
    let* p := with_fields params in
    let* n := extent [t_obs; t_peak; target] in
    let* preds := collect (fun i => pred p (entry t_obs i) (entry t_peak i)) (seq 0 n) in
    mse (column target n) preds.

  (** logm0_c0_early.py:69-74 *)
  Fixpoint global_loss_from (loss : A) (pred : rec A -> A -> A -> res A) (params : pyparams A)
      (global_loss_data : list (arg A * arg A * arg A)) : res A :=
    match global_loss_data with
    | [] => Ok loss
    | loss_data :: r =>
        let* x := loss_kern_scalar pred params loss_data in
        global_loss_from (loss + x) pred params r
    end.
  Definition global_loss_kern (pred : rec A -> A -> A -> res A) (params : pyparams A)
      (global_loss_data : list (arg A * arg A * arg A)) : res A :=
    global_loss_from #0 pred params global_loss_data.

  (** ** Indices and critical time: early_index_alpha.py:104-110,
      early_index_beta.py:104-110, early_index_pop.py:104-110,
      logtc_early.py:69-75, logtc_late.py:69-75

      [c] is the component of the file, [pred] its kernel. *)
  Definition uparam_loss_kern (c : component) (pred : rec A -> A -> A -> A -> res A)
      (u_params : pyparams A) (loss_data : arg A * arg A * arg A * arg A) : res A :=
    let* u := make (c_unames c) (star u_params) in
    let* params := get_bounded_params c u in
    let '(lgm_obs, t_obs, t_peak, target) := loss_data in
    let* n := extent [lgm_obs; t_obs; t_peak; target] in
    let* preds :=
      collect (fun i => pred params (entry lgm_obs i) (entry t_obs i) (entry t_peak i)) (seq 0 n) in
    mse preds (column target n).

  (** ** Peak time *)

  (** The density of jax.scipy.stats.truncnorm (external). *)
  Context (truncnorm_pdf : A -> A -> A -> A -> A -> A).

  (** [loc, scale = params] of a namedtuple of two fields, utp_pdf_kernels.py:68 *)
  Definition unpack2 (params : rec A) : res (A * A) :=
    match values params with [loc; scale] => Ok (loc, scale) | _ => Err ValueError end.

  (** utp_pdf_kernels.py:88-94 *)
  Definition utp_loss_kern (u_params : pyparams A) (loss_data : arg A * arg A) : res A :=
    let* u := make (c_unames UTP) (star u_params) in
    let* params := get_bounded_params UTP u in
    let '(x_target, pdf_target) := loss_data in
    let* ls := unpack2 params in
    let* n := extent [x_target; pdf_target] in
    mse (map (fun i => tp_pdf_kern truncnorm_pdf (entry x_target i) ls) (seq 0 n)) (column pdf_target n).

  (** tp_pdf_cens.py:132-138; [t_0] is a number *)
  Definition tp_cens_loss_kern (u_params : pyparams A) (loss_data : arg A * arg A * A) : res A :=
    let* u := make (c_unames UTP) (star u_params) in
    let* params := get_bounded_params UTP u in
    let '(t_peak_target, pdf_target, t_0) := loss_data in
    let* ls := unpack2 params in
    let* n := extent [t_peak_target; pdf_target] in
    mse (map (fun i => t_peak_cens_pdf_kern truncnorm_pdf ls (entry t_peak_target i) t_0) (seq 0 n))
      (column pdf_target n).

  (** tp_pdf_cens_flex.py:117-120 *)
  Definition mae (x y : list A) : res (list A) :=
    if (length x =? length y)%nat
    then Ok (map (fun xy => nabs (snd xy - fst xy)) (combine x y)) else Err TypeError.

  (** tp_pdf_cens_flex.py:123-126 *)
  Definition loss_kern_single_mass (params : pyparams A) (row : list A * list A * A * A) : res (list A) :=
    let '(utp_target, y_target, lgm_obs, t_obs) := row in
    let* p := with_fields params in
    let* y_pred := frac_peaked_vs_lgm p utp_target lgm_obs t_obs in
    mae y_pred y_target.

  (** tp_pdf_cens_flex.py:134-140.  The data are given row by row; in the code
      the rows are stacked in arrays, so all of them have the same length. *)
  Definition loss_multimass (params : pyparams A) (rows : list (list A * list A * A * A)) : res A :=
    let* losses := collect (loss_kern_single_mass params) rows in
    Ok (nmean (concat losses)).

  (** tp_pdf_cens_flex.py:146-151; the square is written d**2 there *)
  Definition flex_loss (params : list A) (loss_data : arg A * arg A) : res A :=
    match params with
    | [utp_x0] =>
        let '(utp_target, y_target) := loss_data in
        let* n := extent [utp_target; y_target] in
        mse (map (fun i => sigmoid (entry utp_target i) utp_x0 TPC_K TPC_YLO TPC_YHI) (seq 0 n))
          (column y_target n)
    | _ => Err ValueError
    end.
End Losses.

(** ** Fitters, on the reals *)

Local Open Scope R_scope.

Section Fitters.
  Context {P G S : Type}.
  (** np.all(np.isfinite(grads)) *)
  Variable gfinite : G -> bool.
  (** Conversion of a parameter array to single precision: jax evaluates the
      loss, and the Adam wrapper stores its iterates, in single precision. *)
  Variable cast : P -> P.
  Variable pzero : P.
  Variable adam : R -> optimizer P G S.
  Variable minimize : (P -> xr) -> (P -> G) -> P -> P * xr * bool.
  (** The gradient value_and_grad returns for a loss. *)
  Variable grad : (P -> res R) -> P -> G.

  (** bfgs_adam_fallback(value_and_grad(loss), p_init, ...) for a loss that may
      raise.  The minimiser evaluates the loss at the starting point first; an
      exception ends the fit.  Whether one of the losses above raises depends
      on the kind of its arguments and not on their values, so a loss that
      returns at the starting point never raises later. *)
  Definition run_fit (loss : P -> res R) (p_init : P) (nstep n_warmup : nat)
    : res (P * xr * bool * nat) :=
    match loss (cast p_init) with
    | Err e => Err e
    | Ok _ =>
        bfgs_adam_fallback (fun _ => true) gfinite cast pzero adam
          (fun p => (match loss (cast p) with Ok v => Fin v | Err _ => NaN end, grad loss (cast p)))
          minimize p_init nstep n_warmup
    end.
End Fitters.

Section ArrayFit.
  Context {G S : Type}.
  Variable gfinite : G -> bool.
  Variable cast : list R -> list R.
  Variable pzero : list R.
  Variable adam : R -> optimizer (list R) G S.
  Variable minimize : (list R -> xr) -> (list R -> G) -> list R -> list R * xr * bool.
  Variable grad : (list R -> res R) -> list R -> G.

  (** logm0_c0_early.py:80-83 (fit_global_c0_model), logm0_c1_early.py
      (fit_global_c1_model) and the six copies.  Defaults nstep=200, n_warmup=1
      of bfgs_adam_fallback.  The parameters reach the loss as an array. *)
  Definition fit_global_model (pred : rec R -> R -> R -> res R)
      (global_loss_data : list (arg R * arg R * arg R)) (p_init : pyparams R)
    : res (list R * xr * bool * nat) :=
    run_fit gfinite cast pzero adam minimize grad
      (fun x => global_loss_kern pred (PArr x) global_loss_data) (star p_init) 200 1.
End ArrayFit.

Section TpeakFit.
  Context {G S : Type}.
  Variable truncnorm_pdf : R -> R -> R -> R -> R -> R.
  Variable gfinite : G -> bool.
  (** Rounding of a number to single precision. *)
  Variable round : R -> R.
  Variable adam : R -> optimizer (R * R) G S.
  Variable minimize : (R * R -> xr) -> (R * R -> G) -> R * R -> R * R * xr * bool.
  Variable grad : (R * R -> res R) -> R * R -> G.

  (** Parameter arrays have two entries, written as a pair. *)
  Definition arr2 (p : R * R) : pyparams R := PArr [fst p; snd p].
  Definition cast2 (p : R * R) : R * R := (round (fst p), round (snd p)).

  (** utp_pdf_kernels.py:135 *)
  Definition DEFAULT_UTP_U_PARAMS : res (R * R) :=
    let* p := c_default UTP in
    let* u := get_unbounded_params UTP p in
    unpack2 u.

  (** The end of both fitters, utp_pdf_kernels.py:143-145 and
      tp_pdf_cens.py:112-114; the bounding runs in single precision. *)
  Definition bounded_result (r : R * R * xr * bool * nat) : res (rec R * xr * bool * nat) :=
    let '(u_p_best, loss_best, fit_terminates, code_used) := r in
    let* u := make (c_unames UTP) (star (arr2 (cast2 u_p_best))) in
    let* p_best := get_bounded_params UTP u in
    Ok (p_best, loss_best, fit_terminates, code_used).

  (** utp_pdf_kernels.py:138-145 *)
  Definition t_peak_fitter (x_target pdf_target : arg R) : res (rec R * xr * bool * nat) :=
    let* u_init := DEFAULT_UTP_U_PARAMS in
    let* r := run_fit gfinite cast2 (0, 0) adam minimize grad
      (fun u => utp_loss_kern truncnorm_pdf (arr2 u) (x_target, pdf_target)) u_init 200 1 in
    bounded_result r.

  (** tp_pdf_cens.py:103-115; [u_p_init = None] is the default argument *)
  Definition t_peak_cens_fitter (x_target pdf_target : arg R) (t_0 : R) (u_p_init : option (R * R))
      (nstep n_warmup : nat) : res (rec R * xr * bool * nat) :=
    let* u_init := match u_p_init with None => DEFAULT_UTP_U_PARAMS | Some u => Ok u end in
    let* r := run_fit gfinite cast2 (0, 0) adam minimize grad
      (fun u => tp_cens_loss_kern truncnorm_pdf (arr2 u) (x_target, pdf_target, t_0)) u_init
      nstep n_warmup in
    bounded_result r.
End TpeakFit.
