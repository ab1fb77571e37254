(** Specification vocabulary for the population model. *)

From Coq Require Import Reals String List.
From Verif Require Import Model_Base Model_PopBase Model_PopData Model_PopParams.
Import ListNotations.
Local Open Scope R_scope.
Local Open Scope string_scope.

(** [p] has the field [k] with value [v]. *)
Definition has {A} (p : list (string * A)) (k : string) (v : A) : Prop := In (k, v) p.

(** [p] is a namedtuple with exactly these field names, in this order. *)
Definition shaped {A} (names : list string) (p : list (string * A)) : Prop := map fst p = names.

(** Every field with a published interval has a value strictly inside it. *)
Definition in_bounds (bounds : list (string * (R * R))) (p : list (string * R)) : Prop :=
  forall k lo hi, In (k, (lo, hi)) bounds -> exists v, has p k v /\ lo < v < hi.

(** A legal parameter tuple of a component. *)
Definition legal_for (c : component) (p : list (string * R)) : Prop :=
  shaped (map fst (c_pdict c)) p /\ in_bounds (c_bdict c) p.

(** An unbounded parameter tuple of a component: any reals under the names
    prefixed by "u_". *)
Definition unbounded_for (c : component) (u : list (string * R)) : Prop :=
  shaped (map (fun k => "u_" ++ k) (map fst (c_pdict c))) u.

(** Every public pair of bounding and unbounding functions, with the component
    whose names and bounds it uses; the pair of late_index_bimod.py is treated
    separately. *)
Definition bounding_pairs
  : list (component * (rec R -> res (rec R)) * (rec R -> res (rec R))) :=
  map (fun c => (c, get_bounded_params c, get_unbounded_params c))
    [ TPCENS_FLEX; TP_SATS; UTP; TPCENS;
      LGM0_C0_EARLY; LGM0_C1_EARLY; LGM0_C0_LATE; LGM0_C1_LATE;
      LGM0_C0_EARLY_SATS; LGM0_C1_EARLY_SATS; LGM0_C0_LATE_SATS; LGM0_C1_LATE_SATS;
      LOGTC_EARLY; LOGTC_LATE; EARLY_INDEX_ALPHA; EARLY_INDEX_BETA; EARLY_INDEX_POP;
      LATE_INDEX_ALPHA; LATE_INDEX_BETA; FEC; FTPT0; COV ]
  ++ [ (LGM0_EARLY, get_bounded_pair LGM0_EARLY LGM0_C0_EARLY LGM0_C1_EARLY,
        get_unbounded_pair LGM0_EARLY LGM0_C0_EARLY LGM0_C1_EARLY);
       (LGM0_LATE, get_bounded_pair LGM0_LATE LGM0_C0_LATE LGM0_C1_LATE,
        get_unbounded_pair LGM0_LATE LGM0_C0_LATE LGM0_C1_LATE);
       (LGM0_EARLY_SATS, get_bounded_pair LGM0_EARLY_SATS LGM0_C0_EARLY_SATS LGM0_C1_EARLY_SATS,
        get_unbounded_pair LGM0_EARLY_SATS LGM0_C0_EARLY_SATS LGM0_C1_EARLY_SATS);
       (LGM0_LATE_SATS, get_bounded_pair LGM0_LATE_SATS LGM0_C0_LATE_SATS LGM0_C1_LATE_SATS,
        get_unbounded_pair LGM0_LATE_SATS LGM0_C0_LATE_SATS LGM0_C1_LATE_SATS);
       (LGM0_BIMOD, get_bounded_m0pop_params, get_unbounded_m0pop_params);
       (LGM0_BIMOD_SATS, get_bounded_m0pop_params_sats, get_unbounded_m0pop_params_sats);
       (LOGTC_BIMOD, get_bounded_logtc_params, get_unbounded_logtc_params);
       (EARLY_INDEX_BIMOD, get_bounded_early_index_params, get_unbounded_early_index_params) ]%list.

(** The published bounds of a full population parameter set. *)
Definition pop_bounds : list (string * (R * R)) :=
  flat_map c_bdict
    [ TPCENS_FLEX; TP_SATS;
      LGM0_C0_EARLY; LGM0_C1_EARLY; LGM0_C0_LATE; LGM0_C1_LATE;
      LGM0_C0_EARLY_SATS; LGM0_C1_EARLY_SATS; LGM0_C0_LATE_SATS; LGM0_C1_LATE_SATS;
      LOGTC_EARLY; LOGTC_LATE; EARLY_INDEX_ALPHA; EARLY_INDEX_BETA;
      LATE_INDEX_ALPHA; LATE_INDEX_BETA; FEC; COV ].

(** A legal population parameter set. *)
Definition legal_pop (p : list (string * R)) : Prop :=
  shaped (map fst pop_bounds) p /\ in_bounds pop_bounds p.

(** The nine components of a population parameter set, in order. *)
Definition pop_components : list component :=
  [ TPCENS_FLEX; TP_SATS; LGM0_BIMOD; LGM0_BIMOD_SATS; LOGTC_BIMOD;
    EARLY_INDEX_BIMOD; LATE_INDEX_BIMOD; FEC; COV ].

(** An unbounded population parameter set. *)
Definition unbounded_pop (u : list (string * R)) : Prop :=
  shaped (map (fun k => "u_" ++ k) (map fst pop_bounds)) u.

(** The late-index quantities that exist once for the alpha and once for the
    beta population. *)
Definition late_quantities : list string := ["late_index_x0"; "late_index_ylo"; "late_index_yhi"].

(** A parameter tuple that contains every field of a component, with values
    inside the published bounds (the tuple of the component itself, or a
    larger one). *)
Definition provides (c : component) (p : list (string * R)) : Prop :=
  NoDup (map fst p) /\ in_bounds (c_bdict c) p.

(** Rows and columns of the covariance matrix. *)
Definition cov_quantities : list string := ["logm0"; "logtc"; "early"; "late"].

(** The two populations: suffixes in the names of the index parameters and of
    the critical-time parameters. *)
Definition two_populations : list (string * string) := [("_alpha", "_early"); ("_beta", "_late")].

(** The four populations with their own z=0 mass parameters. *)
Definition four_populations : list string := ["_early"; "_late"; "_early_sats"; "_late_sats"].
