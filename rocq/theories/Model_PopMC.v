(** Model of the Monte Carlo generators of populations
    (diffmahpop_kernels/mc_bimod_cens.py, mc_bimod_sats.py, param_utils.py) and
    of the population losses (bimod_cens_fithelp.py, bimod_sats_fithelp.py,
    bimod_censat_fithelp.py).

    The two mc_bimod modules are the same text except for the peak-time draw
    and the z=0 mass parameters, so each function is written once with an
    argument [g] that selects the module.  [jit] is the identity and [vmap] is
    the map over the leading axis. *)

From Coq Require Import Reals String List Bool Arith.
From Verif Require Import Model_Num Model_Base Model_Kernels Model_Utils Model_PopBase Model_PopData
  Model_PopParams Model_PopKernels.
Import ListNotations.
Local Open Scope string_scope.

(** ** Random numbers *)

(** jax.random keys: a seed, or element [i] of [jran.split(k, n)].  Nothing is
    assumed about different keys giving different numbers. *)
Inductive key : Type :=
| Seed (s : nat)
| Split (k : key) (n i : nat).

(** A call of the random generator and the key it consumes. *)
Inductive draw : Type :=
| Uniform (k : key)
| Normal (k : key).

(** The generator: jran.uniform(k, shape=()), jran.uniform(k, shape=(n,)), and
    the deviation that jran.multivariate_normal(k, mean, cov, shape=()) adds to
    its mean. *)
Record rng (A : Type) : Type := mkRng {
  uniform : key -> A;
  uniforms : key -> nat -> list A;
  deviation : key -> nat * (nat -> nat -> A) -> list A
}.
Arguments uniform {A} _ _.
Arguments uniforms {A} _ _ _.
Arguments deviation {A} _ _ _.

(** A computation that may raise and records the draws it makes, in order. *)
Definition mc (X : Type) : Type := (res X * list draw)%type.
Definition mret {X} (x : X) : mc X := (Ok x, []).
Definition mlift {X} (r : res X) : mc X := (r, []).
Definition mbind {X Y} (m : mc X) (f : X -> mc Y) : mc Y :=
  match fst m with
  | Ok x => (fst (f x), snd m ++ snd (f x))%list
  | Err e => (Err e, snd m)
  end.
Notation "'do*' x ':=' m 'in' k" := (mbind m (fun x => k))
  (at level 200, x pattern, right associativity).

Fixpoint mseq {X} (l : list (mc X)) : mc (list X) :=
  match l with
  | [] => mret []
  | m :: l' => do* x := m in do* xs := mseq l' in mret (x :: xs)
  end.

(** [jran.split(k, n)] *)
Definition split (k : key) (n : nat) : list key := map (Split k n) (seq 0 n).

(** [vmap] over two arrays and an array of keys, and over three: the lengths
    must agree. *)
Definition vmap3 {X Y W} (f : X -> Y -> key -> mc W) (xs : list X) (ys : list Y) (ks : list key)
  : mc (list W) :=
  if (length xs =? length ys)%nat && (length xs =? length ks)%nat then
    mseq (map (fun a => f (fst (fst a)) (snd (fst a)) (snd a)) (combine (combine xs ys) ks))
  else mlift (Err ValueError).
Definition vmap4 {X Y Z W} (f : X -> Y -> key -> Z -> mc W) (xs : list X) (ys : list Y)
  (ks : list key) (zs : list Z) : mc (list W) :=
  if (length xs =? length ys)%nat && (length xs =? length ks)%nat && (length xs =? length zs)%nat then
    mseq (map (fun a => f (fst (fst (fst a))) (snd (fst (fst a))) (snd (fst a)) (snd a))
            (combine (combine (combine xs ys) ks) zs))
  else mlift (Err ValueError).

(** ** Generators *)

Inductive galaxy : Type := Cen | Sat.

Section MC.
  Context {A : Type} {N : Num A}.
  Local Open Scope num_scope.

  (** The cumulative distribution of jax.scipy.stats.truncnorm (external). *)
  Context (truncnorm_cdf : A -> A -> A -> A -> A -> A).
  Context (G : rng A).

  Definition draw_uniform (k : key) : mc A := (Ok (uniform G k), [Uniform k]).
  Definition draw_uniforms (k : key) (n : nat) : mc (list A) := (Ok (uniforms G k n), [Uniform k]).

  (** elementwise sum of two arrays *)
  Fixpoint add_rows (x y : list A) : list A :=
    match x, y with
    | a :: x', b :: y' => (a + b) :: add_rows x' y'
    | _, _ => []
    end.

  (** jran.multivariate_normal (external): mean plus deviation; the shapes of
      the mean and of the covariance matrix must agree. *)
  Definition draw_mvnormal (k : key) (mean : list A) (cov : nat * (nat -> nat -> A)) : mc (list A) :=
    if (fst cov =? length mean)%nat then
      (Ok (add_rows mean (deviation G k cov)), [Normal k])
    else mlift (Err ValueError).

  (** t_peak_kernels/tp_pdf_cens_flex.py:53-56, 69-75.  Simplification: an
      exception raised before the draw is reported after it. *)
  Definition mc_tpeak_singlecen (params : rec A) (lgm_obs t_obs : A) (ran_key : key) (t_0 : A) : mc A :=
    do* uran := draw_uniform ran_key in
    mlift (tpeak_cen_of_uran params lgm_obs t_obs t_0 uran).

  (** t_peak_kernels/tp_pdf_sats.py:65-72, utp_pdf_kernels.py:44-53 *)
  Definition mc_tpeak_singlesat (params : rec A) (ran_key : key) (lgm_obs t_obs : A) : mc A :=
    do* u_ran := draw_uniform ran_key in
    mlift (tpeak_sat_of_uran truncnorm_cdf params lgm_obs t_obs u_ran).

  (** The nine-fold unpacking of [get_component_model_params]. *)
  Definition unpack9 (l : list (rec A))
    : res (rec A * rec A * rec A * rec A * rec A * rec A * rec A * rec A * rec A) :=
    match l with
    | [a; b; c; d; e; f; g; h; i] => Ok (a, b, c, d, e, f, g, h, i)
    | _ => Err ValueError
    end.

  (** Which z=0 mass parameters and suffix a module uses. *)
  Definition logm0_of (g : galaxy) (logm0_params logm0_sats_params : rec A) : rec A :=
    match g with Cen => logm0_params | Sat => logm0_sats_params end.
  Definition sfx_of (g : galaxy) (pop : string) : string :=
    match g with Cen => pop | Sat => pop ++ "_sats" end.

  (** mc_bimod_cens.py:96-122, mc_bimod_sats.py:96-122 (the split at 113 is
      unused) *)
  Definition mean_diffmah_params_early_t_peak (g : galaxy) (params : rec A) (lgm_obs t_obs t_peak : A)
    : res (DiffmahParams A) :=
    let* models := get_component_model_params params in
    let* (tpc, tps, m0, m0s, tc, ei, li, fec, cov) := unpack9 models in
    let* logm0 := pred_logm0_kern (sfx_of g "_early") (logm0_of g m0 m0s) lgm_obs t_obs t_peak in
    let* logtc := pred_logtc_kern "_early" tc lgm_obs t_obs t_peak in
    let* early_index := pred_early_index_kern "_alpha" ei lgm_obs t_obs t_peak in
    let* late_index := pred_late_index_kern "_alpha" li lgm_obs in
    Ok (mkParams logm0 logtc early_index late_index t_peak).

  (** mc_bimod_cens.py:155-181, mc_bimod_sats.py:155-181 *)
  Definition mean_diffmah_params_late_t_peak (g : galaxy) (params : rec A) (lgm_obs t_obs t_peak : A)
    : res (DiffmahParams A) :=
    let* models := get_component_model_params params in
    let* (tpc, tps, m0, m0s, tc, ei, li, fec, cov) := unpack9 models in
    let* logm0 := pred_logm0_kern (sfx_of g "_late") (logm0_of g m0 m0s) lgm_obs t_obs t_peak in
    let* logtc := pred_logtc_kern "_late" tc lgm_obs t_obs t_peak in
    let* early_index := pred_early_index_kern "_beta" ei lgm_obs t_obs t_peak in
    let* late_index := pred_late_index_kern "_beta" li lgm_obs in
    Ok (mkParams logm0 logtc early_index late_index t_peak).

  (** mc_bimod_cens.py:66-93, mc_bimod_sats.py:66-93 *)
  Definition mean_diffmah_params_early (g : galaxy) (params : rec A) (lgm_obs t_obs : A) (ran_key : key)
    (lgt0 : A) : mc (DiffmahParams A) :=
    let t_0 := npow10 lgt0 in
    do* models := mlift (get_component_model_params params) in
    do* (tpc, tps, m0, m0s, tc, ei, li, fec, cov) := mlift (unpack9 models) in
    let tpc_key := Split ran_key 2 0 in
    do* t_peak := match g with
                  | Cen => mc_tpeak_singlecen tpc lgm_obs t_obs tpc_key t_0
                  | Sat => mc_tpeak_singlesat tps tpc_key lgm_obs t_obs
                  end in
    do* logm0 := mlift (pred_logm0_kern (sfx_of g "_early") (logm0_of g m0 m0s) lgm_obs t_obs t_peak) in
    do* logtc := mlift (pred_logtc_kern "_early" tc lgm_obs t_obs t_peak) in
    do* early_index := mlift (pred_early_index_kern "_alpha" ei lgm_obs t_obs t_peak) in
    do* late_index := mlift (pred_late_index_kern "_alpha" li lgm_obs) in
    mret (mkParams logm0 logtc early_index late_index t_peak).

  (** mc_bimod_cens.py:125-152, mc_bimod_sats.py:125-152 *)
  Definition mean_diffmah_params_late (g : galaxy) (params : rec A) (lgm_obs t_obs : A) (ran_key : key)
    (lgt0 : A) : mc (DiffmahParams A) :=
    let t_0 := npow10 lgt0 in
    do* models := mlift (get_component_model_params params) in
    do* (tpc, tps, m0, m0s, tc, ei, li, fec, cov) := mlift (unpack9 models) in
    let tpc_key := Split ran_key 2 0 in
    do* t_peak := match g with
                  | Cen => mc_tpeak_singlecen tpc lgm_obs t_obs tpc_key t_0
                  | Sat => mc_tpeak_singlesat tps tpc_key lgm_obs t_obs
                  end in
    do* logm0 := mlift (pred_logm0_kern (sfx_of g "_late") (logm0_of g m0 m0s) lgm_obs t_obs t_peak) in
    do* logtc := mlift (pred_logtc_kern "_late" tc lgm_obs t_obs t_peak) in
    do* early_index := mlift (pred_early_index_kern "_beta" ei lgm_obs t_obs t_peak) in
    do* late_index := mlift (pred_late_index_kern "_beta" li lgm_obs) in
    mret (mkParams logm0 logtc early_index late_index t_peak).

  (** mc_bimod_cens.py:36-48, mc_bimod_sats.py:36-48 *)
  Definition mean_diffmah_params (g : galaxy) (params : rec A) (lgm_obs t_obs : A) (ran_key : key) (lgt0 : A)
    : mc (DiffmahParams A * DiffmahParams A * A) :=
    do* early := mean_diffmah_params_early g params lgm_obs t_obs ran_key lgt0 in
    do* late := mean_diffmah_params_late g params lgm_obs t_obs ran_key lgt0 in
    do* frac := mlift (frac_early_cens_kern params lgm_obs t_obs) in
    mret (early, late, frac).

  (** mc_bimod_cens.py:51-63 *)
  Definition mean_diffmah_params_t_peak (g : galaxy) (params : rec A) (lgm_obs t_obs t_peak : A)
    : mc (DiffmahParams A * DiffmahParams A * A) :=
    do* early := mlift (mean_diffmah_params_early_t_peak g params lgm_obs t_obs t_peak) in
    do* late := mlift (mean_diffmah_params_late_t_peak g params lgm_obs t_obs t_peak) in
    do* frac := mlift (frac_early_cens_kern params lgm_obs t_obs) in
    mret (early, late, frac).

  (** [jnp.array(u)[:-1]] *)
  Definition without_tp (u : DiffmahUParams A) : list A :=
    [u_logm0 u; u_logtc u; u_early_index u; u_late_index u].
  (** [DiffmahUParams( *l, u_t_peak)] *)
  Definition with_tp (l : list A) (u_tp : A) : res (DiffmahUParams A) :=
    match l with
    | [a; b; c; d] => Ok (mkUParams a b c d u_tp)
    | _ => Err TypeError
    end.

  (** mc_bimod_cens.py:184-220, mc_bimod_sats.py:184-220 *)
  Definition mc_diffmah_params_single (g : galaxy) (params : rec A) (lgm_obs t_obs : A) (ran_key : key)
    (lgt0 : A) (t_peak : option A) : mc (DiffmahParams A * DiffmahParams A * A) :=
    do* (mean_early, mean_late, frac_early_cens) :=
      match t_peak with
      | None => mean_diffmah_params g params lgm_obs t_obs ran_key lgt0
      | Some tp => mean_diffmah_params_t_peak g params lgm_obs t_obs tp
      end in
    let mean_u_early := get_unbounded_mah_params mean_early in
    let mean_u_late := get_unbounded_mah_params mean_late in
    do* cov := mlift (get_diffmahpop_cov params lgm_obs) in
    let early_key := Split ran_key 2 0 in
    let late_key := Split ran_key 2 1 in
    do* ran_early := draw_mvnormal early_key (without_tp mean_u_early) cov in
    do* ran_u_early := mlift (with_tp ran_early (u_t_peak mean_u_early)) in
    do* ran_late := draw_mvnormal late_key (without_tp mean_u_late) cov in
    do* ran_u_late := mlift (with_tp ran_late (u_t_peak mean_u_late)) in
    mret (get_bounded_mah_params ran_u_early, get_bounded_mah_params ran_u_late, frac_early_cens).

  (** The seven results of [_mc_diffmah_singlecen], grouped: early parameters,
      accretion rates and history, the same for late, and the early fraction. *)
  Record HaloPair : Type := mkPair {
    pr_early : DiffmahParams A; pr_dmhdt_early : list A; pr_log_mah_early : list A;
    pr_late : DiffmahParams A; pr_dmhdt_late : list A; pr_log_mah_late : list A;
    pr_frac : A
  }.

  (** mc_bimod_cens.py:223-233 *)
  Definition mc_diffmah_single (g : galaxy) (params : rec A) (tarr : list A) (lgm_obs t_obs : A)
    (ran_key : key) (lgt0 : A) : mc HaloPair :=
    do* (early, late, frac) := mc_diffmah_params_single g params lgm_obs t_obs ran_key lgt0 None in
    let (dmhdt_early, log_mah_early) := mah_singlehalo early tarr lgt0 in
    let (dmhdt_late, log_mah_late) := mah_singlehalo late tarr lgt0 in
    mret (mkPair early dmhdt_early log_mah_early late dmhdt_late log_mah_late frac).

  (** mc_bimod_cens.py:236-237 *)
  Definition mc_diffmah_single_vmap (g : galaxy) (params : rec A) (tarr : list A) (lgm_obs t_obs : list A)
    (ran_keys : list key) (lgt0 : A) : mc (list HaloPair) :=
    vmap3 (fun m t k => mc_diffmah_single g params tarr m t k lgt0) lgm_obs t_obs ran_keys.

  (** mc_bimod_cens.py:33 *)
  Definition NH_PER_M0BIN : nat := 200.

  (** mc_bimod_cens.py:247-255; [lgm_obs + zz] *)
  Definition mc_diffmah_halo_sample (g : galaxy) (params : rec A) (tarr : list A) (lgm_obs t_obs : A)
    (ran_key : key) (lgt0 : A) (n_mc : nat) : mc (list HaloPair) :=
    let zz := repeat #0 n_mc in
    mc_diffmah_single_vmap g params tarr (map (nadd lgm_obs) zz) (map (nadd t_obs) zz)
      (split ran_key n_mc) lgt0.

  (** An array of parameter tuples as a tuple of arrays. *)
  Definition columns (l : list (DiffmahParams A)) : DiffmahParams (list A) :=
    mkParams (map logm0 l) (map logtc l) (map early_index l) (map late_index l) (map t_peak l).

  (** param_utils.py:8-33, and mc_bimod_cens.py:270-271 and 305-306:
      [jnp.where] field by field *)
  Definition mc_select_diffmah_params (mah_params_1 mah_params_0 : DiffmahParams (list A))
    (mc_is_1 : list bool) : DiffmahParams (list A) :=
    mkParams (where_list mc_is_1 (logm0 mah_params_1) (logm0 mah_params_0))
      (where_list mc_is_1 (logtc mah_params_1) (logtc mah_params_0))
      (where_list mc_is_1 (early_index mah_params_1) (early_index mah_params_0))
      (where_list mc_is_1 (late_index mah_params_1) (late_index mah_params_0))
      (where_list mc_is_1 (t_peak mah_params_1) (t_peak mah_params_0)).

  (** [uran < frac], elementwise; the arrays have the same shape *)
  Definition lt_list (x y : list A) : list bool := map (fun a => fst a <? snd a) (combine x y).

  (** mc_bimod_cens.py:273-284 *)
  Record HaloPop : Type := mkHaloPop {
    hp_mah_params : DiffmahParams (list A);
    hp_mah_params_early : DiffmahParams (list A);
    hp_mah_params_late : DiffmahParams (list A);
    hp_frac_early_cens : list A;
    hp_mc_early : list bool
  }.

  (** mc_bimod_cens.py:240-244 and 258-284, mc_bimod_sats.py:252-284 *)
  Definition mc_diffmah_pop (g : galaxy) (params : rec A) (lgm_obs t_obs : list A) (ran_key : key)
    (lgt0 : A) (t_peak : option (list A)) : mc HaloPop :=
    let early_late_key := Split ran_key 2 0 in
    let ran_key := Split ran_key 2 1 in
    let ran_keys := split ran_key (length lgm_obs) in
    do* r := match t_peak with
             | None => vmap3 (fun m t k => mc_diffmah_params_single g params m t k lgt0 None)
                         lgm_obs t_obs ran_keys
             | Some tp => vmap4 (fun m t k x => mc_diffmah_params_single g params m t k lgt0 (Some x))
                            lgm_obs t_obs ran_keys tp
             end in
    let mah_params_early := columns (map (fun x => fst (fst x)) r) in
    let mah_params_late := columns (map (fun x => snd (fst x)) r) in
    let frac_early_cens := map snd r in
    do* uran := draw_uniforms early_late_key (length frac_early_cens) in
    let mc_early := lt_list uran frac_early_cens in
    mret (mkHaloPop (mc_select_diffmah_params mah_params_early mah_params_late mc_early)
            mah_params_early mah_params_late frac_early_cens mc_early).

  (** [jnp.where(msk.reshape((-1, 1)), x, y)] on (n_halos, n_times) tables *)
  Fixpoint where_rows (c : list bool) (x y : list (list A)) : list (list A) :=
    match c, x, y with
    | ci :: c', xi :: x', yi :: y' => jwhere ci xi yi :: where_rows c' x' y'
    | _, _, _ => []
    end.

  (** mc_bimod_cens.py:287-313: parameters, accretion rates, histories *)
  Definition mc_pop (g : galaxy) (params : rec A) (tarr : list A) (lgm_obs t_obs : list A) (ran_key : key)
    (lgt0 : A) : mc (DiffmahParams (list A) * list (list A) * list (list A)) :=
    let n_mc := length lgm_obs in
    let ran_keys := split ran_key (n_mc + 1) in
    let dmah_keys := removelast ran_keys in
    let uran_key := last ran_keys ran_key in
    do* r := mc_diffmah_single_vmap g params tarr lgm_obs t_obs dmah_keys lgt0 in
    let p_e := columns (map pr_early r) in
    let p_l := columns (map pr_late r) in
    let frac_early_cens := map pr_frac r in
    do* uran := draw_uniforms uran_key (length lgm_obs) in
    let msk := lt_list uran frac_early_cens in
    let mah_params := mc_select_diffmah_params p_e p_l msk in
    let dmhdt := where_rows msk (map pr_dmhdt_early r) (map pr_dmhdt_late r) in
    let log_mah := where_rows msk (map pr_log_mah_early r) (map pr_log_mah_late r) in
    mret (mah_params, dmhdt, log_mah).

  (** ** Moments *)

  (** [jnp.sum(table, axis=0)] of a table with [nt] columns *)
  Definition sum_axis0 (nt : nat) (table : list (list A)) : list A :=
    fold_right add_rows (repeat #0 nt) table.
  (** [table * w.reshape((-1, 1))] *)
  Definition scale_rows (table : list (list A)) (w : list A) : list (list A) :=
    map (fun a => map (fun x => x * snd a) (fst a)) (combine table w).
  (** [(table - row)**2] *)
  Definition sq_dev (table : list (list A)) (row : list A) : list (list A) :=
    map (fun r => map (fun a => (fst a - snd a) * (fst a - snd a)) (combine r row)) table.

  (** mc_bimod_cens.py:316-351 after the sample has been drawn *)
  Definition moments (nt : nat) (r : list HaloPair) : list A * list A * list A :=
    let log_mah_early := map pr_log_mah_early r in
    let log_mah_late := map pr_log_mah_late r in
    let frac_early := map pr_frac r in
    let n_early := length log_mah_early in
    let n_late := length log_mah_late in
    let frac_late := map (fun f => #1 - f) frac_early in
    let weights_early := #1 / #(INR n_early) in
    let weights_late := #1 / #(INR n_late) in
    let w_e := map (fun f => f * weights_late) frac_early in
    let w_l := map (fun f => f * weights_early) frac_late in
    let mu_e := sum_axis0 nt (scale_rows log_mah_early w_e) in
    let mu_l := sum_axis0 nt (scale_rows log_mah_late w_l) in
    let mean_log_mah := add_rows mu_e mu_l in
    let dlgm_sq_early := sq_dev log_mah_early mean_log_mah in
    let dlgm_sq_late := sq_dev log_mah_late mean_log_mah in
    let var_e := sum_axis0 nt (scale_rows dlgm_sq_early w_e) in
    let var_l := sum_axis0 nt (scale_rows dlgm_sq_late w_l) in
    let var_log_mah := add_rows var_e var_l in
    let std_log_mah := map nsqrt var_log_mah in
    let frac_peaked := map (fun _ => #(1 / 2) + #0) mean_log_mah in
    (mean_log_mah, std_log_mah, frac_peaked).

  (** mc_bimod_cens.py:316-351 *)
  Definition predict_mah_moments_singlebin (g : galaxy) (params : rec A) (tarr : list A)
    (lgm_obs t_obs : A) (ran_key : key) (lgt0 : A) : mc (list A * list A * list A) :=
    do* r := mc_diffmah_halo_sample g params tarr lgm_obs t_obs ran_key lgt0 NH_PER_M0BIN in
    mret (moments (length tarr) r).

  (** ** Losses *)

  (** bimod_cens_fithelp.py:15-18; arrays of different lengths do not
      broadcast (against length 1 they would, which is left out) *)
  Definition mse (x y : list A) : res A :=
    if (length x =? length y)%nat then Ok (pop_mse x y) else Err TypeError.

  (** The targets of one bin and its inputs. *)
  Record Bin : Type := mkBin {
    bin_tarr : list A;
    bin_lgm_obs : A;
    bin_t_obs : A;
    bin_mean : list A;
    bin_std : list A;
    bin_frac_peaked : list A
  }.

  (** bimod_cens_fithelp.py:21-41, bimod_sats_fithelp.py:20-40 *)
  Definition loss_mah_moments_singlebin (g : galaxy) (params : rec A) (b : Bin) (ran_key : key) (lgt0 : A)
    : mc A :=
    do* (mean_log_mah, std_log_mah, frac_peaked) :=
      predict_mah_moments_singlebin g params (bin_tarr b) (bin_lgm_obs b) (bin_t_obs b) ran_key lgt0 in
    do* loss := mlift (mse mean_log_mah (bin_mean b)) in
    do* loss2 := mlift (mse std_log_mah (bin_std b)) in
    mret (loss + loss2).

  (** bimod_cens_fithelp.py:44-96: the arrays of bins as a list of bins *)
  Definition loss_mah_moments_multibin (g : galaxy) (params : rec A) (bins : list Bin) (ran_key : key)
    (lgt0 : A) : mc A :=
    let ran_keys := split ran_key (length bins) in
    do* losses := mseq (map (fun a => loss_mah_moments_singlebin g params (fst a) (snd a) lgt0)
                          (combine bins ran_keys)) in
    mret (nmean losses).

  (** bimod_cens_fithelp.py:99-105 *)
  Definition loss_mah_moments_multibin_u_params (u_params : rec A) (bins : list Bin) (ran_key : key) (lgt0 : A)
    : mc A :=
    do* dflt := mlift DEFAULT_DIFFMAHPOP_U_PARAMS in
    do* u_params := mlift (replace dflt u_params) in
    do* params := mlift (get_diffmahpop_params_from_u_params u_params) in
    loss_mah_moments_multibin Cen params bins ran_key lgt0.

  (** bimod_censat_fithelp.py:17-61 *)
  Definition loss_mah_moments_multibin_censat (varied_params : rec A) (bins_cens bins_sats : list Bin)
    (ran_key : key) (lgt0 : A) : mc A :=
    do* dflt := mlift DEFAULT_DIFFMAHPOP_PARAMS in
    do* params := mlift (replace dflt varied_params) in
    let ran_key_cens := Split ran_key 2 0 in
    let ran_key_sats := Split ran_key 2 1 in
    do* loss_cens := loss_mah_moments_multibin Cen params bins_cens ran_key_cens lgt0 in
    do* loss_sats := loss_mah_moments_multibin Sat params bins_sats ran_key_sats lgt0 in
    mret (loss_cens + loss_sats).

  (** bimod_censat_fithelp.py:69-73 *)
  Definition loss_mah_moments_multibin_censat_u_params (u_params : rec A) (bins_cens bins_sats : list Bin)
    (ran_key : key) (lgt0 : A) : mc A :=
    do* dflt := mlift DEFAULT_DIFFMAHPOP_U_PARAMS in
    do* u_params := mlift (replace dflt u_params) in
    do* params := mlift (get_diffmahpop_params_from_u_params u_params) in
    loss_mah_moments_multibin_censat params bins_cens bins_sats ran_key lgt0.
End MC.
Arguments HaloPair A : clear implicits.
Arguments HaloPop A : clear implicits.
Arguments Bin A : clear implicits.
