(** Model of diffmah/fitting_helpers/diffmah_fitter_helpers.py, except the
    ASCII and HDF5 output (Model_Outline.v).

    Numbers are extended reals: arithmetic is exact, special values are IEEE.
    [f4] is the cast of a number to single precision (numpy's astype("f4") and
    the conversion of inputs at a jax.jit boundary); it is an arbitrary
    function.  The optimisers are arbitrary, as in Model_Adam.v. *)

From Coq Require Import Reals List Arith ZArith Bool.
From Verif Require Import Model_Num Model_Base Model_Kernels Model_Utils Model_Adam.
Import ListNotations.
Local Open Scope R_scope.

Definition xeqb (x y : xr) : bool :=
  match x, y with
  | Fin a, Fin b => Reqb a b
  | PInf, PInf | MInf, MInf => true
  | _, _ => false
  end.

(** x <= y *)
Definition xleb (x y : xr) : bool := xltb x y || xeqb x y.

(** np.maximum: NaN propagates *)
Definition xmax (x y : xr) : xr :=
  match x, y with
  | NaN, _ | _, NaN => NaN
  | _, _ => if xltb x y then y else x
  end.

(** x[-1] *)
Definition getlast {A} (l : list A) : res A :=
  match rev l with [] => Err IndexError | a :: _ => Ok a end.

(** x[msk] *)
Definition select {A} (msk : list bool) (l : list A) : list A :=
  map snd (filter fst (combine msk l)).

(** diffmah_fitter_helpers.py:17-21 *)
Definition DLOGM_CUT : xr := Fin (25 / 10).
Definition T_FIT_MIN : xr := Fin 1.
Definition NPTS_FIT_MIN : nat := 3.
Definition NOFIT_FILL : xr := Fin (-99).
Definition EPSILON : R := 1 / 10000000.

(** diffmah_fitter_helpers.py:30-36  VariedDiffmahUParams *)
Record Varied (A : Type) : Type := mkVaried {
  v_logm0 : A; v_logtc : A; v_early : A; v_late : A
}.
Arguments mkVaried {A} _ _ _ _.
Arguments v_logm0 {A} _.
Arguments v_logtc {A} _.
Arguments v_early {A} _.
Arguments v_late {A} _.

(** diffmah_fitter_helpers.py:300-301  DiffmahFitLossData *)
Record LossData : Type := mkLossData {
  t_target : list xr;
  log_mah_target : list xr;
  ld_u_t_peak : xr;
  ld_logt0 : xr
}.

(** diffmah_fitter_helpers.py:153-161  DiffmahFitResult *)
Record FitResult : Type := mkFitResult {
  p_best : DiffmahParams xr;
  loss_best : xr;
  skip_fit : bool;
  fit_terminates : bool;
  code_used : Z;
  loss_data : LossData
}.

(** diffmah_fitter_helpers.py:164-169: [Ok true] when a warning is issued;
    [max] of an empty array raises ValueError. *)
Definition check_for_logmah_vs_mah_mistake (mah_sim : list xr) : res bool :=
  match mah_sim with
  | [] => Err ValueError
  | m :: ms => Ok (xltb (fold_left xmax ms m) (Fin 10000))
  end.

(** jnp.argmax of a boolean array: the first True, or 0. *)
Fixpoint first_true (l : list bool) : option nat :=
  match l with
  | [] => None
  | true :: _ => Some 0%nat
  | false :: l' => option_map S (first_true l')
  end.
Definition argmax_bool (l : list bool) : nat :=
  match first_true l with Some i => i | None => 0%nat end.

(** diffmah_fitter_helpers.py:218-222; the jit boundary casts the table. *)
Definition compute_indx_t_peak_singlehalo (f4 : xr -> xr) (log_mah_table : list xr) : res nat :=
  let tab := map f4 log_mah_table in
  let* lm0 := getlast tab in
  Ok (argmax_bool (map (fun x => xeqb x lm0) tab)).

(** np.maximum.accumulate *)
Fixpoint accumulate_from (acc : xr) (l : list xr) : list xr :=
  match l with
  | [] => []
  | x :: l' => let acc := xmax acc x in acc :: accumulate_from acc l'
  end.
Definition maximum_accumulate (l : list xr) : list xr :=
  match l with [] => [] | x :: l' => x :: accumulate_from x l' end.

(** diffmah_fitter_helpers.py:228-237, in the arithmetic [N] *)
Definition get_target_data_in (N : Num xr) (t_sim log_mah_sim : list xr) (lgm_min dlogm_cut t_fit_min : xr)
  : res (list xr * list xr) :=
  let* logm0_sim := getlast log_mah_sim in
  let msk :=
    map (fun tl => xltb (@nsub xr N logm0_sim dlogm_cut) (snd tl) && xltb lgm_min (snd tl)
                   && xleb t_fit_min (fst tl))%bool (combine t_sim log_mah_sim) in
  let logt_target := select msk (map (@nlog10 xr N) t_sim) in
  let log_mah_target := maximum_accumulate (select msk log_mah_sim) in
  Ok (logt_target, log_mah_target).

(** diffmah_fitter_helpers.py:240-244, in the arithmetic [N] *)
Definition get_clipped_log_mah_in (N : Num xr) (mah : list xr) (lgm_min : xr) : list xr :=
  let clip := @nadd xr N (@nconst xr N EPSILON) (@npow10 xr N lgm_min) in
  map (fun m => @nlog10 xr N (jwhere (xleb m (@npow10 xr N lgm_min)) clip m)) mah.

(** The same in exact arithmetic; the fitter below uses these. *)
Definition get_target_data := get_target_data_in Num_xr.
Definition get_clipped_log_mah := get_clipped_log_mah_in Num_xr.

(** diffmah_fitter_helpers.py:325-333 *)
Definition compute_non_trivial_npts (log_mah_target : list xr) : nat :=
  let logmp0 := match getlast log_mah_target with Ok x => x | Err _ => MInf end in
  length (filter (fun b => b) (map (fun x => xltb x logmp0) log_mah_target)).

(** diffmah_fitter_helpers.py:247-297 *)
Definition get_loss_data (f4 : xr -> xr) (t_sim mah_sim : list xr)
    (lgm_min dlogm_cut t_fit_min : xr) (npts_min : nat) (tpeak_fixed : option xr)
  : res (Varied xr * LossData * bool) :=
  let* _ := check_for_logmah_vs_mah_mistake mah_sim in
  let log_mah_sim := get_clipped_log_mah mah_sim lgm_min in
  let* (logt_target, log_mah_target) :=
    get_target_data t_sim log_mah_sim lgm_min dlogm_cut t_fit_min in
  let t_target := map npow10 logt_target in
  let npts := compute_non_trivial_npts log_mah_target in
  if Nat.ltb npts npts_min then
    let loss_data := mkLossData t_target log_mah_target NOFIT_FILL NOFIT_FILL in
    Ok (mkVaried NOFIT_FILL NOFIT_FILL NOFIT_FILL NOFIT_FILL, loss_data, true)
  else
    let* t_last := getlast t_sim in
    let logt0 := nlog10 t_last in
    let* t_peak_ :=
      match tpeak_fixed with
      | None =>
          let* indx_t_peak := compute_indx_t_peak_singlehalo f4 log_mah_sim in
          getitem t_sim indx_t_peak
      | Some tp => Ok tp
      end in
    let* lm_last := getlast log_mah_sim in
    let p_init :=
      mkParams (f4 lm_last) (f4 (logtc DEFAULT_MAH_PARAMS))
        (f4 (early_index DEFAULT_MAH_PARAMS)) (f4 (late_index DEFAULT_MAH_PARAMS)) (f4 t_peak_) in
    let u := get_unbounded_mah_params p_init in
    let u_p_init := mkVaried (u_logm0 u) (u_logtc u) (u_early_index u) (u_late_index u) in
    Ok (u_p_init, mkLossData t_target log_mah_target (u_t_peak u) logt0, false).

Section Loss.
  Context {A : Type} {N : Num A}.
  Local Open Scope num_scope.

  Fixpoint nsum (l : list A) : A := match l with [] => #0 | x :: l' => x + nsum l' end.

  (** diffmah_fitter_helpers.py:304-308 *)
  Definition mse (pred target : list A) : A :=
    let diff := map (fun pt => fst pt - snd pt) (combine pred target) in
    nsum (map (fun d => d * d) diff) / #(INR (length diff)).

  (** dk.DiffmahUParams( *u_params_varied, u_t_peak ) *)
  Definition all_uparams (v : Varied A) (u_tp : A) : DiffmahUParams A :=
    mkUParams (v_logm0 v) (v_logtc v) (v_early v) (v_late v) u_tp.

  (** diffmah_fitter_helpers.py:311-319 *)
  Definition log_mah_loss_uparams (v : Varied A) (t_tgt log_mah_tgt : list A) (u_tp lgt0 : A) : A :=
    let log_mah_pred := map (fun t => log_mah_kern_u_params (all_uparams v u_tp) t lgt0) t_tgt in
    mse log_mah_pred log_mah_tgt.
End Loss.

(** diffmah_fitter_helpers.py:322: value_and_grad with respect to the first
    argument, one dual-number direction per parameter. *)
Definition loss_and_grads_kern {A} {N : Num A} (v : Varied A) (t_tgt log_mah_tgt : list A)
    (u_tp lgt0 : A) : A * Varied A :=
  let one := nconst 1 in let zero := nconst 0 in
  let dir (d1 d2 d3 d4 : A) : A :=
    dder (log_mah_loss_uparams
            (mkVaried (mkDual (v_logm0 v) d1) (mkDual (v_logtc v) d2)
               (mkDual (v_early v) d3) (mkDual (v_late v) d4))
            (map dlift t_tgt) (map dlift log_mah_tgt) (dlift u_tp) (dlift lgt0)) in
  (log_mah_loss_uparams v t_tgt log_mah_tgt u_tp lgt0,
   mkVaried (dir one zero zero zero) (dir zero one zero zero)
     (dir zero zero one zero) (dir zero zero zero one)).

Definition vmap4 {A B} (f : A -> B) (v : Varied A) : Varied B :=
  mkVaried (f (v_logm0 v)) (f (v_logtc v)) (f (v_early v)) (f (v_late v)).

Definition vfinite (v : Varied xr) : bool :=
  xisfinite (v_logm0 v) && xisfinite (v_logtc v) && xisfinite (v_early v) && xisfinite (v_late v).

(** The loss and gradient handed to the optimisers.  jax.jit casts the numpy
    inputs to single precision; u_t_peak already is a jax number. *)
Definition lg_of (f4 : xr -> xr) (ld : LossData) (v : Varied xr) : xr * Varied xr :=
  loss_and_grads_kern (vmap4 f4 v) (map f4 (t_target ld)) (map f4 (log_mah_target ld))
    (ld_u_t_peak ld) (f4 (ld_logt0 ld)).

(** diffmah_fitter_helpers.py:39-150.  The jit boundary of
    get_bounded_mah_params casts the optimiser's output to single precision. *)
Definition diffmah_fitter {S : Type} (f4 : xr -> xr)
    (adam : R -> optimizer (Varied xr) (Varied xr) S)
    (minimize : (Varied xr -> xr) -> (Varied xr -> Varied xr) -> Varied xr
                -> Varied xr * xr * bool)
    (t_sim mah_sim : list xr) (lgm_min dlogm_cut t_fit_min : xr) (nstep n_warmup : nat)
    (tpeak_fixed : option xr) (force_skip_fit : bool) : res FitResult :=
  if negb (Nat.eqb (length mah_sim) (length t_sim)) then Err AssertionError else
  let* _ := check_for_logmah_vs_mah_mistake mah_sim in
  let* (u_p_init, ld, skip) :=
    get_loss_data f4 t_sim mah_sim lgm_min dlogm_cut t_fit_min NPTS_FIT_MIN tpeak_fixed in
  let skip := (skip || force_skip_fit)%bool in
  if skip then
    Ok (mkFitResult (mkParams NOFIT_FILL NOFIT_FILL NOFIT_FILL NOFIT_FILL NOFIT_FILL)
          NOFIT_FILL skip false (-1)%Z ld)
  else
    let* (u_best, loss, term, code) :=
      bfgs_adam_fallback vfinite vfinite (vmap4 f4) (mkVaried (Fin 0) (Fin 0) (Fin 0) (Fin 0))
        adam (lg_of f4 ld) minimize u_p_init nstep n_warmup in
    let p := get_bounded_mah_params (all_uparams (vmap4 f4 u_best) (ld_u_t_peak ld)) in
    Ok (mkFitResult p loss skip term (Z.of_nat code) ld).
