(** Model of diffmah/fitting_helpers/fit_utils.py and bfgs_wrapper.py.

    The optimisers themselves (jax.example_libraries.optimizers.adam and
    scipy.optimize.minimize) and the loss function are arbitrary: they are
    arguments of every definition below.  Losses are extended reals, so NaN and
    infinities are visible.  [P] is the type of parameter arrays, [G] that of
    gradient arrays, [S] that of optimiser states. *)

From Coq Require Import Reals List Arith Bool.
From Verif Require Import Model_Num Model_Base.
Import ListNotations.
Local Open Scope R_scope.

(** np.isfinite *)
Definition xisfinite (x : xr) : bool := match x with Fin _ => true | _ => false end.

Definition xisnan (x : xr) : bool := match x with NaN => true | _ => false end.

(** Position and value of the first smallest entry, scanning from position [i]
    with the best so far [(k, b)]. *)
Fixpoint argmin_from (i k : nat) (b : xr) (l : list xr) : nat :=
  match l with
  | [] => k
  | x :: l' => if xltb x b then argmin_from (S i) i x l' else argmin_from (S i) k b l'
  end.

(** np.nanargmin: NaN counts as +inf; an empty or all-NaN array raises ValueError. *)
Definition nanargmin (l : list xr) : res nat :=
  if forallb xisnan l then Err ValueError
  else match map (fun x => if xisnan x then PInf else x) l with
       | [] => Err ValueError
       | x :: l' => Ok (argmin_from 1 0 x l')
       end.

(** Array indexing and row assignment. *)
Definition getitem {A} (l : list A) (i : nat) : res A :=
  match nth_error l i with Some a => Ok a | None => Err IndexError end.

Definition setrow {A} (l : list A) (i : nat) (a : A) : list A :=
  firstn i l ++ match skipn i l with [] => [] | _ :: r => a :: r end.

Record optimizer (P G S : Type) : Type := mkOpt {
  opt_init : P -> S;
  opt_update : nat -> G -> S -> S;
  get_params : S -> P
}.
Arguments mkOpt {P G S} _ _ _.
Arguments opt_init {P G S} _ _.
Arguments opt_update {P G S} _ _ _ _.
Arguments get_params {P G S} _ _.

(** What _jax_adam_wrapper returns: best-fit params, loss, loss_arr, params_arr. *)
Record burn (P : Type) : Type := mkBurn {
  b_params : P;
  b_loss : xr;
  b_loss_arr : list xr;
  b_params_arr : list P
}.
Arguments mkBurn {P} _ _ _ _.
Arguments b_params {P} _.
Arguments b_loss {P} _.
Arguments b_loss_arr {P} _.
Arguments b_params_arr {P} _.

Section Adam.
  Context {P G S : Type}.
  (** np.all(np.isfinite(p)) for parameter and gradient arrays *)
  Variable pfinite : P -> bool.
  Variable gfinite : G -> bool.
  (** Storing a parameter array into the float32 array params_arr (fit_utils.py:156, 183). *)
  Variable pcast : P -> P.
  (** A row of zeros. *)
  Variable pzero : P.
  (** jax_opt.adam(step_size) *)
  Variable adam : R -> optimizer P G S.
  (** loss_and_grad_func(p, loss_data) for the loss_data at hand *)
  Variable lg : P -> xr * G.

  (** fit_utils.py:158-195, the loop body at step [istep] with [n] steps left. *)
  Fixpoint adam_loop (opt : optimizer P G S) (tol : xr) (n istep : nat) (st : S)
      (loss_collector : list xr) (params_arr : list P) : res (burn P) :=
    match n with
    | O =>
        let* indx_best := nanargmin loss_collector in
        let* best_fit_params := getitem params_arr indx_best in
        let* loss := getitem loss_collector indx_best in
        Ok (mkBurn best_fit_params loss loss_collector params_arr)
    | Datatypes.S n' =>
        let p := get_params opt st in
        let (loss, grads) := lg p in
        let loss_collector := loss_collector ++ [loss] in
        let has_nans := negb (pfinite p) || negb (xisfinite loss) || negb (gfinite grads) in
        if has_nans then
          let* best :=
            if Nat.ltb 0 istep then
              let* indx_best := nanargmin (firstn istep loss_collector) in
              let* best_fit_params := getitem params_arr indx_best in
              let* best_fit_loss := getitem loss_collector indx_best in
              Ok (best_fit_params, best_fit_loss)
            else Ok (p, Fin (99999 / 100)) in
          Ok (mkBurn (fst best) (snd best) (firstn istep loss_collector) (firstn istep params_arr))
        else
          let params_arr := setrow params_arr istep (pcast p) in
          let st := opt_update opt istep grads st in
          if xltb loss tol then Ok (mkBurn p loss loss_collector params_arr)
          else adam_loop opt tol n' (Datatypes.S istep) st loss_collector params_arr
    end.

  (** fit_utils.py:108-195 *)
  Definition jax_adam_wrapper_ (params_init : P) (n_step : nat) (step_size : R) (tol : xr)
    : res (burn P) :=
    let opt := adam step_size in
    adam_loop opt tol n_step 0 (opt_init opt params_init) [] (repeat pzero n_step).

  (** fit_utils.py:79-89: the warm-up loop.  State: p_init, loss_init and the
      variable fit_results, unbound before the first iteration. *)
  Fixpoint warmup (n : nat) (warmup_n_step : nat) (warmup_step_size : R) (tol : xr)
      (p_init : P) (loss_init : xr) (fit_results : option (burn P))
    : res (P * xr * option (burn P)) :=
    match n with
    | O => Ok (p_init, loss_init, fit_results)
    | Datatypes.S n' =>
        let* fr := jax_adam_wrapper_ p_init warmup_n_step warmup_step_size tol in
        warmup n' warmup_n_step warmup_step_size tol (b_params fr) (b_loss fr) (Some fr)
    end.

  (** fit_utils.py:8-105.  [warmup_step_size = None] means 5*step_size. *)
  Definition jax_adam_wrapper (params_init : P) (n_step n_warmup : nat) (step_size : R)
      (warmup_n_step : nat) (warmup_step_size : option R) (tol : xr) : res (burn P * bool) :=
    let wss := match warmup_step_size with None => 5 * step_size | Some s => s end in
    let* (p_init, loss_init, fit_results) :=
      warmup n_warmup warmup_n_step wss tol params_init PInf None in
    let p0 := if pfinite p_init then p_init else params_init in
    let* fit_results :=
      if xltb tol loss_init
      then let* fr := jax_adam_wrapper_ p0 n_step step_size tol in Ok (Some fr)
      else Ok fit_results in
    match fit_results with
    | None => Err UnboundLocalError
    | Some fr => Ok (fr, negb (Nat.ltb (length (b_loss_arr fr)) n_step))
    end.

  (** scipy.optimize.minimize: from the loss, the gradient and the starting
      point to (x, fun, success). *)
  Variable minimize : (P -> xr) -> (P -> G) -> P -> P * xr * bool.

  (** bfgs_wrapper.py:15-44 *)
  Definition scipy_lbfgs_wrapper (p_init : P) : P * xr * bool :=
    minimize (fun p => fst (lg p)) (fun p => snd (lg p)) p_init.

  (** bfgs_wrapper.py:47-91.  Result: p_best, loss_best, fit_terminates, code_used. *)
  Definition bfgs_adam_fallback (u_p_init : P) (nstep n_warmup : nat)
    : res (P * xr * bool * nat) :=
    let '(x, loss_bfgs, success) := scipy_lbfgs_wrapper u_p_init in
    if success && xisfinite loss_bfgs && xltb (Fin 0) loss_bfgs
    then Ok (x, loss_bfgs, success, 0%nat)
    else
      let* (fr, fit_terminates) :=
        jax_adam_wrapper u_p_init nstep n_warmup (1 / 100) 50 None (Fin 0) in
      Ok (b_params fr, b_loss fr, fit_terminates, 1%nat).
End Adam.
