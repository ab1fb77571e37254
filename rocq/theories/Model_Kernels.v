(** Model of diffmah/diffmah_kernels.py.  [jjit] is the identity. *)

From Coq Require Import Reals List.
From Verif Require Import Model_Num.
Import ListNotations.

(** diffmah_kernels.py:16  namedtuple DiffmahParams *)
Record DiffmahParams (A : Type) : Type := mkParams {
  logm0 : A;
  logtc : A;
  early_index : A;
  late_index : A;
  t_peak : A
}.
Arguments mkParams {A} _ _ _ _ _.
Arguments logm0 {A} _.
Arguments logtc {A} _.
Arguments early_index {A} _.
Arguments late_index {A} _.
Arguments t_peak {A} _.

(** diffmah_kernels.py:20  namedtuple DiffmahUParams *)
Record DiffmahUParams (A : Type) : Type := mkUParams {
  u_logm0 : A;
  u_logtc : A;
  u_early_index : A;
  u_late_index : A;
  u_t_peak : A
}.
Arguments mkUParams {A} _ _ _ _ _.
Arguments u_logm0 {A} _.
Arguments u_logtc {A} _.
Arguments u_early_index {A} _.
Arguments u_late_index {A} _.
Arguments u_t_peak {A} _.

Section Kernels.
  Context {A : Type} {N : Num A}.
  Local Open Scope num_scope.

  (** diffmah_kernels.py:11 *)
  Definition MAH_K : A := #(35 / 10).

  (** diffmah_kernels.py:22-29 *)
  Definition MAH_PBOUNDS : DiffmahParams (A * A) :=
    mkParams (#0, #17) (#(-1), #1) (#(1 / 10), #10) (#(1 / 10), #5)
      (#(5 / 100), #20).

  (** diffmah_kernels.py:13-17 *)
  Definition DEFAULT_MAH_PARAMS : DiffmahParams A :=
    mkParams #12 #(5 / 100) #(26137643 / 10000000) #(12692805 / 100000000) #14.

  (** diffmah_kernels.py:115-118 *)
  Definition sigmoid (x x0 k ylo yhi : A) : A :=
    let height_diff := yhi - ylo in
    ylo + height_diff * nlogistic (k * (x - x0)).

  (** diffmah_kernels.py:121-124 *)
  Definition inverse_sigmoid (y x0 k ylo yhi : A) : A :=
    let lnarg := (yhi - ylo) / (y - ylo) - #1 in
    x0 - nlog lnarg / k.

  (** diffmah_kernels.py:127-130 *)
  Definition power_law_index_vs_logt (logt logtc early late : A) : A :=
    sigmoid logt logtc MAH_K early late.

  (** diffmah_kernels.py:133-138 *)
  Definition rolling_plaw_vs_logt (logt logt0 logm0 logtc early late : A) : A :=
    let rolling_index := power_law_index_vs_logt logt logtc early late in
    rolling_index * (logt - logt0) + logm0.

  (** diffmah_kernels.py:141-145 *)
  Definition rolling_plaw_vs_t (t logt0 logm0 logtc early late : A) : A :=
    rolling_plaw_vs_logt (nlog10 t) logt0 logm0 logtc early late.

  (** diffmah_kernels.py:148-152 *)
  Definition log_mah_noq_kern (p : DiffmahParams A) (t logt0 : A) : A :=
    rolling_plaw_vs_t t logt0 (logm0 p) (logtc p) (early_index p) (late_index p).

  (** diffmah_kernels.py:155-159 *)
  Definition mah_noq_kern (p : DiffmahParams A) (t logt0 : A) : A :=
    npow10 (log_mah_noq_kern p t logt0).

  (** diffmah_kernels.py:175-181 *)
  Definition log_mah_kern (p : DiffmahParams A) (t logt0 : A) : A :=
    let log_mah_noq := log_mah_noq_kern p t logt0 in
    let lgmhq := log_mah_noq_kern p (t_peak p) logt0 in
    jwhere (t <? t_peak p) log_mah_noq lgmhq.

  (** diffmah_kernels.py:184-188 *)
  Definition mah_kern (p : DiffmahParams A) (t logt0 : A) : A :=
    npow10 (log_mah_kern p t logt0).

  (** diffmah_kernels.py:89-112, scalar arguments *)
  Definition logmh_at_t_obs (p : DiffmahParams A) (t_obs lgt0 : A) : A :=
    log_mah_kern p t_obs lgt0.

  (** ** Bounding *)

  (** diffmah_kernels.py:228 *)
  Definition BOUNDING_K : A := #(1 / 10).

  (** diffmah_kernels.py:231-235 *)
  Definition get_bounded_diffmah_param (u_param : A) (bound : A * A) : A :=
    let (lo, hi) := bound in
    let mid := #(1 / 2) * (lo + hi) in
    sigmoid u_param mid BOUNDING_K lo hi.

  (** diffmah_kernels.py:238-242 *)
  Definition get_unbounded_diffmah_param (param : A) (bound : A * A) : A :=
    let (lo, hi) := bound in
    let mid := #(1 / 2) * (lo + hi) in
    inverse_sigmoid param mid BOUNDING_K lo hi.

  (** diffmah_kernels.py:245-249 *)
  Definition get_early_late (u_early u_late : A) : A * A :=
    let late := get_bounded_diffmah_param u_late (late_index MAH_PBOUNDS) in
    let early := sigmoid u_early #0 BOUNDING_K late (snd (early_index MAH_PBOUNDS)) in
    (early, late).

  (** diffmah_kernels.py:252-256 *)
  Definition get_u_early_late (early late : A) : A * A :=
    let u_late := get_unbounded_diffmah_param late (late_index MAH_PBOUNDS) in
    let u_early :=
      inverse_sigmoid early #0 BOUNDING_K late (snd (early_index MAH_PBOUNDS)) in
    (u_early, u_late).

  (** diffmah_kernels.py:259-268 *)
  Definition get_bounded_mah_params (u : DiffmahUParams A) : DiffmahParams A :=
    let lm0 := get_bounded_diffmah_param (u_logm0 u) (logm0 MAH_PBOUNDS) in
    let ltc := get_bounded_diffmah_param (u_logtc u) (logtc MAH_PBOUNDS) in
    let tp := get_bounded_diffmah_param (u_t_peak u) (t_peak MAH_PBOUNDS) in
    let (early, late) := get_early_late (u_early_index u) (u_late_index u) in
    mkParams lm0 ltc early late tp.

  (** diffmah_kernels.py:271-280 *)
  Definition get_unbounded_mah_params (p : DiffmahParams A) : DiffmahUParams A :=
    let (ue, ul) := get_u_early_late (early_index p) (late_index p) in
    let um := get_unbounded_diffmah_param (logm0 p) (logm0 MAH_PBOUNDS) in
    let uc := get_unbounded_diffmah_param (logtc p) (logtc MAH_PBOUNDS) in
    let ut := get_unbounded_diffmah_param (t_peak p) (t_peak MAH_PBOUNDS) in
    mkUParams um uc ue ul ut.

  (** diffmah_kernels.py:286-289 *)
  Definition log_mah_kern_u_params (u : DiffmahUParams A) (t logt0 : A) : A :=
    log_mah_kern (get_bounded_mah_params u) t logt0.
End Kernels.

(** A parameter record whose entries do not vary with the differentiated argument. *)
Definition dlift_params {A} {N : Num A} (p : DiffmahParams A) : DiffmahParams (Dual A) :=
  mkParams (dlift (logm0 p)) (dlift (logtc p)) (dlift (early_index p))
    (dlift (late_index p)) (dlift (t_peak p)).

Section Rates.
  Context {A : Type} {N : Num A}.
  Local Open Scope num_scope.

  (** diffmah_kernels.py:162  grad(_mah_noq_kern, argnums=1) *)
  Definition dmhdt_noq_grad_kern_scalar (p : DiffmahParams A) (t logt0 : A) : A :=
    grad (fun t' => mah_noq_kern (dlift_params p) t' (dlift logt0)) t.

  (** diffmah_kernels.py:166-169 *)
  Definition dmhdt_noq_kern_scalar (p : DiffmahParams A) (t logt0 : A) : A :=
    dmhdt_noq_grad_kern_scalar p t logt0 / #1000000000.

  (** diffmah_kernels.py:172  vmap over times *)
  Definition dmhdt_noq_kern (p : DiffmahParams A) (t : list A) (logt0 : A) : list A :=
    map (fun ti => dmhdt_noq_kern_scalar p ti logt0) t.

  (** jnp.where on arrays of the same length, elementwise *)
  Fixpoint where_list (c : list bool) (x y : list A) : list A :=
    match c, x, y with
    | ci :: c', xi :: x', yi :: y' => jwhere ci xi yi :: where_list c' x' y'
    | _, _, _ => []
    end.

  (** diffmah_kernels.py:194-198 *)
  Definition dmhdt_kern (p : DiffmahParams A) (t : list A) (logt0 : A) : list A :=
    let dmhdt_noq := dmhdt_noq_kern p t logt0 in
    where_list (map (fun ti => t_peak p <? ti) t) (map (fun _ => #0) t) dmhdt_noq.

  (** diffmah_kernels.py:201-205 *)
  Definition dmhdt_kern_scalar (p : DiffmahParams A) (t logt0 : A) : A :=
    jwhere (t_peak p <? t) #0 (dmhdt_noq_kern_scalar p t logt0).

  (** diffmah_kernels.py:175-181 broadcast over an array of times *)
  Definition log_mah_kern_arr (p : DiffmahParams A) (t : list A) (logt0 : A) : list A :=
    let log_mah_noq := map (fun ti => log_mah_noq_kern p ti logt0) t in
    let lgmhq := log_mah_noq_kern p (t_peak p) logt0 in
    where_list (map (fun ti => ti <? t_peak p) t) log_mah_noq (map (fun _ => lgmhq) t).

  (** diffmah_kernels.py:208-212 *)
  Definition diffmah_kern (p : DiffmahParams A) (t : list A) (logt0 : A)
    : list A * list A :=
    (dmhdt_kern p t logt0, log_mah_kern_arr p t logt0).

  (** diffmah_kernels.py:215-219 *)
  Definition diffmah_kern_scalar (p : DiffmahParams A) (t logt0 : A) : A * A :=
    (dmhdt_kern_scalar p t logt0, log_mah_kern p t logt0).

  (** diffmah_kernels.py:32-57 *)
  Definition mah_singlehalo (p : DiffmahParams A) (tarr : list A) (lgt0 : A)
    : list A * list A :=
    diffmah_kern p tarr lgt0.

  (** A namedtuple of five columns read as a list of rows; [None] when the
      columns have different lengths (jax.vmap raises ValueError). *)
  Fixpoint rows5 (c1 c2 c3 c4 c5 : list A) : option (list (DiffmahParams A)) :=
    match c1, c2, c3, c4, c5 with
    | [], [], [], [], [] => Some []
    | x1 :: c1', x2 :: c2', x3 :: c3', x4 :: c4', x5 :: c5' =>
        match rows5 c1' c2' c3' c4' c5' with
        | Some r => Some (mkParams x1 x2 x3 x4 x5 :: r)
        | None => None
        end
    | _, _, _, _, _ => None
    end.

  Definition rows (p : DiffmahParams (list A)) : option (list (DiffmahParams A)) :=
    rows5 (logm0 p) (logtc p) (early_index p) (late_index p) (t_peak p).

  (** diffmah_kernels.py:222-223 and 60-86: vmap over the first axis of the
      parameters; the result is a pair of (n_halos, n_times) tables. *)
  Definition mah_halopop (p : DiffmahParams (list A)) (tarr : list A) (lgt0 : A)
    : option (list (list A) * list (list A)) :=
    match rows p with
    | Some halos =>
        let res := map (fun h => diffmah_kern h tarr lgt0) halos in
        Some (map fst res, map snd res)
    | None => None
    end.

  (** diffmah_kernels.py:89-112 with array parameters and one t_obs per halo
      (numpy broadcasting of equal-length arrays; other lengths raise). *)
  Fixpoint map2 {B C D} (f : B -> C -> D) (x : list B) (y : list C) : option (list D) :=
    match x, y with
    | [], [] => Some []
    | a :: x', b :: y' =>
        match map2 f x' y' with Some r => Some (f a b :: r) | None => None end
    | _, _ => None
    end.

  Definition logmh_at_t_obs_pop (p : DiffmahParams (list A)) (t_obs : list A) (lgt0 : A)
    : option (list A) :=
    match rows p with
    | Some halos => map2 (fun h t => log_mah_kern h t lgt0) halos t_obs
    | None => None
    end.

  (** diffmah_kernels.py:292-295 *)
  Definition dmhdt_kern_u_params (u : DiffmahUParams A) (t : list A) (logt0 : A) : list A :=
    dmhdt_kern (get_bounded_mah_params u) t logt0.

  (** diffmah_kernels.py:298-303 *)
  Definition diffmah_kern_u_params (u : DiffmahUParams A) (t : list A) (logt0 : A)
    : list A * list A :=
    diffmah_kern (get_bounded_mah_params u) t logt0.
End Rates.

(** diffmah_kernels.py:283 *)
Definition DEFAULT_MAH_U_PARAMS {A} {N : Num A} : DiffmahUParams A :=
  get_unbounded_mah_params DEFAULT_MAH_PARAMS.
