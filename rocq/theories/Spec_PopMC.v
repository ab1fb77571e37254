(** Specification vocabulary for the Monte Carlo generators. *)

From Coq Require Import Reals String List.
From Verif Require Import Model_Num Model_Base Model_Kernels Model_PopBase Model_PopKernels Model_PopMC.
Import ListNotations.
Local Open Scope R_scope.
Local Open Scope string_scope.

(** A generator that returns arrays of the requested shape; nothing is assumed
    about the numbers. *)
Definition shapely {A} (G : rng A) : Prop :=
  (forall k n, List.length (uniforms G k n) = n) /\
  (forall k c, List.length (deviation G k c) = fst c).

(** The key a draw consumes. *)
Definition key_of (d : draw) : key := match d with Uniform k | Normal k => k end.

(** Different draws consume different keys. *)
Definition keys_not_shared (tr : list draw) : Prop :=
  forall d d', In d tr -> In d' tr -> d <> d' -> key_of d <> key_of d'.

(** The stream of a draw: the seed of its key and the indices by which the key
    was split off.  Keys split with the same indices count as the same stream
    even if the numbers of pieces differ, since some versions of jax.random give
    them the same value. *)
Fixpoint path (k : key) : list nat :=
  match k with Seed s => [s] | Split k' _ i => (path k' ++ [i])%list end.
Definition stream (d : draw) : list nat := path (key_of d).

(** Two groups of draws have no stream in common. *)
Definition independent (tr tr' : list draw) : Prop :=
  forall d d', In d tr -> In d' tr' -> stream d <> stream d'.

(** Row [i] of a table of parameters stored by columns. *)
Definition row_is {A} (P : DiffmahParams (list A)) (i : nat) (p : DiffmahParams A) : Prop :=
  nth_error (logm0 P) i = Some (logm0 p) /\
  nth_error (logtc P) i = Some (logtc p) /\
  nth_error (early_index P) i = Some (early_index p) /\
  nth_error (late_index P) i = Some (late_index p) /\
  nth_error (t_peak P) i = Some (t_peak p).

(** All columns have [n] entries. *)
Definition n_rows {A} (P : DiffmahParams (list A)) (n : nat) : Prop :=
  List.length (logm0 P) = n /\ List.length (logtc P) = n /\ List.length (early_index P) = n /\
  List.length (late_index P) = n /\ List.length (t_peak P) = n.

(** Weighted samples: a list of (weight, value). *)
Definition total (l : list R) : R := fold_right Rplus 0 l.
Definition weighted_mean (s : list (R * R)) : R := total (map (fun wx => fst wx * snd wx) s).
Definition weighted_variance (s : list (R * R)) : R :=
  total (map (fun wx => fst wx * (snd wx - weighted_mean s) ^ 2) s).
Definition probability_weights (s : list (R * R)) : Prop :=
  (forall w x, In (w, x) s -> 0 <= w) /\ total (map fst s) = 1.

(** The mean parameters of a population of halos of mass [lgm] at time [t] that
    peaked at [tp], from the published kernels with the full parameter set.
    [m0], [tc] and [ix] are the suffixes of the population. *)
Definition is_mean {A} {N : Num A} (m0 tc ix : string) (p : rec A) (lgm t tp : A) (m : DiffmahParams A)
  : Prop :=
  pred_logm0_kern m0 p lgm t tp = Ok (logm0 m) /\
  pred_logtc_kern tc p lgm t tp = Ok (logtc m) /\
  pred_early_index_kern ix p lgm t tp = Ok (early_index m) /\
  pred_late_index_kern ix p lgm = Ok (late_index m) /\
  t_peak m = tp.
Definition is_mean_early {A} {N : Num A} (g : galaxy) : rec A -> A -> A -> A -> DiffmahParams A -> Prop :=
  is_mean (match g with Cen => "_early" | Sat => "_early_sats" end) "_early" "_alpha".
Definition is_mean_late {A} {N : Num A} (g : galaxy) : rec A -> A -> A -> A -> DiffmahParams A -> Prop :=
  is_mean (match g with Cen => "_late" | Sat => "_late_sats" end) "_late" "_beta".

(** The peak time that a uniform draw [u] stands for. *)
Definition peak_time {A} {N : Num A} (F : A -> A -> A -> A -> A -> A) (g : galaxy) (p : rec A)
  (lgm t lgt0 u : A) : res A :=
  match g with
  | Cen => tpeak_cen_of_uran p lgm t (npow10 lgt0) u
  | Sat => tpeak_sat_of_uran F p lgm t u
  end.

(** [h] is [m] displaced by [d] in the unbounded parameters, with the peak time
    left alone. *)
Definition scattered {A} {N : Num A} (m : DiffmahParams A) (d : list A) (h : DiffmahParams A) : Prop :=
  exists d1 d2 d3 d4 rest, d = d1 :: d2 :: d3 :: d4 :: rest /\
    let u := get_unbounded_mah_params m in
    h = get_bounded_mah_params
          (mkUParams (nadd (u_logm0 u) d1) (nadd (u_logtc u) d2) (nadd (u_early_index u) d3)
             (nadd (u_late_index u) d4) (u_t_peak u)).

(** The weighted sample of log masses at time index [j] behind the predicted
    moments: each of the [n] halos counts as an early former with weight
    [frac/n] and as a late former with weight [(1-frac)/n]. *)
Definition sample_at (r : list (HaloPair R)) (j : nat) : list (R * R) :=
  (map (fun h => (pr_frac h / INR (List.length r), nth j (pr_log_mah_early h) 0)) r ++
   map (fun h => ((1 - pr_frac h) / INR (List.length r), nth j (pr_log_mah_late h) 0)) r)%list.

(** A parameter set of real numbers, seen as floats. *)
Definition xrec (p : list (string * R)) : list (string * xr) := map (fun kv => (fst kv, Fin (snd kv))) p.

(** All the numbers of a list are finite. *)
Definition all_finite (l : list xr) : Prop := forall x, In x l -> exists r, x = Fin r.
