(** Peak times of whole populations: t_peak_kernels/utp_pdf_kernels.py,
    tp_pdf_sats.py, tp_pdf_cens.py and tp_pdf_cens_flex.py. *)

From Coq Require Import Reals String List Bool Arith.
From Verif Require Import Model_Num Model_Base Model_PopBase Model_PopKernels Model_PopMC Model_CompFit.
Import ListNotations.
Local Open Scope num_scope.

Section TpeakPop.
  Context {A : Type} {N : Num A}.
  (** The cumulative distribution of jax.scipy.stats.truncnorm (external). *)
  Context (truncnorm_cdf : A -> A -> A -> A -> A -> A).
  Context (G : rng A).

  (** utp_pdf_kernels.py:44-53 *)
  Definition mc_tp_pdf_singlesat (ran_key : key) (params : A * A) : mc A :=
    do* u_ran := draw_uniform G ran_key in
    mret (utp_sat_of_uran truncnorm_cdf params u_ran).

  (** utp_pdf_kernels.py:56-63: one key per entry of params.utp_loc; [vmap] needs
      arrays of equal length. *)
  Definition mc_tp_pdf_satpop (ran_key : key) (utp_loc utp_scale : list A) : mc (list A) :=
    let n_sats := length utp_loc in
    let ran_keys := split ran_key n_sats in
    vmap3 (fun loc scale k => mc_tp_pdf_singlesat k (loc, scale)) utp_loc utp_scale ran_keys.

  (** The arrays that a kernel returns for broadcast arguments; two numbers give
      a number, over which [vmap] raises. *)
  Definition elementwise {X} (f : A -> A -> res X) (x y : arg A) : res (list X) :=
    match x, y with
    | Num1 _, Num1 _ => Err ValueError
    | _, _ => let* n := extent [x; y] in collect (fun i => f (entry x i) (entry y i)) (seq 0 n)
    end.

  (** array * broadcast argument *)
  Definition scale_by (l : list A) (x : arg A) : list A :=
    map (fun ia => snd ia * entry x (fst ia)) (combine (seq 0 (length l)) l).

  (** tp_pdf_sats.py:49-55 *)
  Definition mc_utp_pdf (params : rec A) (ran_key : key) (lgmparr tobsarr : arg A) : mc (list A) :=
    do* utp_loc := mlift (elementwise (get_utp_loc params) lgmparr tobsarr) in
    do* utp_scale := mlift (elementwise (get_utp_scale params) lgmparr tobsarr) in
    mc_tp_pdf_satpop ran_key utp_loc utp_scale.

  (** tp_pdf_sats.py:58-62 *)
  Definition mc_tpeak_sats (params : rec A) (ran_key : key) (lgmparr tobsarr : arg A) : mc (list A) :=
    do* utp := mc_utp_pdf params ran_key lgmparr tobsarr in
    mret (scale_by utp tobsarr).

  (** tp_pdf_cens.py:57-63 *)
  Definition mc_tpeak_cens (params : rec A) (ran_key : key) (lgmparr tobsarr : arg A) (t_0 : A)
    : mc (list A) :=
    do* pars := mlift (elementwise (fun lgm t => get_singlepdf_params params lgm t t_0) lgmparr tobsarr) in
    do* utp := mc_tp_pdf_satpop ran_key (map fst pars) (map snd pars) in
    mret (scale_by utp (Num1 t_0)).

  (** tp_pdf_cens.py:66-72 *)
  Definition mc_tpeak_trunc_singlecen (params : rec A) (ran_key : key) (lgmparr tobsarr t_0 : A) : mc A :=
    do* pars := mlift (get_singlepdf_params params lgmparr tobsarr t_0) in
    do* utp := mc_tp_pdf_singlesat ran_key pars in
    mret (utp * t_0).

  (** tp_pdf_cens_flex.py:59-66: [vmap] over lgm_obs, t_obs and the keys, so both
      must be arrays. *)
  Definition mc_t_peak_cenpop (params : rec A) (lgm_obs t_obs : arg A) (ran_key : key) (t_0 : A)
    : mc (list A) :=
    match lgm_obs, t_obs with
    | Arr lgms, Arr ts =>
        vmap3 (fun lgm t k => mc_tpeak_singlecen G params lgm t k t_0) lgms ts (split ran_key (length lgms))
    | _, _ => mlift (Err ValueError)
    end.
End TpeakPop.
