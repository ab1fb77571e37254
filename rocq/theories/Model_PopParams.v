(** Model of the two-population (bimod) component modules and of
    diffmahpop_kernels/bimod_censat_params.py. *)

From Coq Require Import Reals String List Bool Arith.
From Verif Require Import Model_Num Model_Base Model_Kernels Model_PopBase Model_PopData.
Import ListNotations.
Local Open Scope string_scope.

(** ** Merged modules *)

(** bimod_logm0_kernels/logm0_pop_early.py:10-23, logm0_pop_late.py:10-23 *)
Definition LGM0_EARLY : component := c_merge LGM0_C0_EARLY LGM0_C1_EARLY.
Definition LGM0_LATE : component := c_merge LGM0_C0_LATE LGM0_C1_LATE.
(** bimod_logm0_kernels/logm0_pop_bimod.py:17-30 *)
Definition LGM0_BIMOD : component := c_merge LGM0_EARLY LGM0_LATE.
(** bimod_logm0_sats/logm0_pop_early.py, logm0_pop_late.py,
    logm0_pop_bimod_sats.py:17-30 *)
Definition LGM0_EARLY_SATS : component := c_merge LGM0_C0_EARLY_SATS LGM0_C1_EARLY_SATS.
Definition LGM0_LATE_SATS : component := c_merge LGM0_C0_LATE_SATS LGM0_C1_LATE_SATS.
Definition LGM0_BIMOD_SATS : component := c_merge LGM0_EARLY_SATS LGM0_LATE_SATS.
(** logtc_bimod.py:10-23 *)
Definition LOGTC_BIMOD : component := c_merge LOGTC_EARLY LOGTC_LATE.
(** early_index_bimod.py:10-23 *)
Definition EARLY_INDEX_BIMOD : component := c_merge EARLY_INDEX_ALPHA EARLY_INDEX_BETA.
(** late_index_bimod.py:10-23 *)
Definition LATE_INDEX_BIMOD : component := c_merge LATE_INDEX_ALPHA LATE_INDEX_BETA.

Section Params.
  Context {A : Type} {N : Num A}.

  (** [Class( *[getattr(params, key) for key in Class._fields])] *)
  Definition select (names : list string) (params : rec A) : res (rec A) :=
    let* vals := getattrs params names in
    make names vals.

  (** One block of a bimod bounding function, e.g. early_index_bimod.py:37-42:
      pick the fields of a part and bound them. *)
  Definition part_bounded (c : component) (u_params : rec A) : res (rec A) :=
    let* u := select (c_unames c) u_params in
    get_bounded_params c u.

  (** e.g. early_index_bimod.py:61-63 *)
  Definition part_unbounded (c : component) (params : rec A) : res (rec A) :=
    let* p := select (c_names c) params in
    get_unbounded_params c p.

  (** early_index_bimod.py:36-53, logtc_bimod.py:26-41,
      bimod_logm0_kernels/logm0_pop_early.py:36-48 and its copies *)
  Definition get_bounded_pair (whole c d : component) (u_params : rec A) : res (rec A) :=
    let* pc := part_bounded c u_params in
    let* pd := part_bounded d u_params in
    make (c_names whole) (values pc ++ values pd)%list.

  (** early_index_bimod.py:56-70, logtc_bimod.py:44-58, logm0_pop_early.py:50-64 *)
  Definition get_unbounded_pair (whole c d : component) (params : rec A) : res (rec A) :=
    let* uc := part_unbounded c params in
    let* ud := part_unbounded d params in
    make (c_unames whole) (values uc ++ values ud)%list.

  (** bimod_logm0_kernels/logm0_pop_bimod.py:33-54 and logm0_pop_bimod_sats.py:33-54 *)
  Definition get_bounded_quad (whole c0e c1e c0l c1l : component) (u_params : rec A)
    : res (rec A) :=
    let* p1 := part_bounded c0e u_params in
    let* p2 := part_bounded c1e u_params in
    let* p3 := part_bounded c0l u_params in
    let* p4 := part_bounded c1l u_params in
    make (c_names whole) (values p1 ++ values p2 ++ values p3 ++ values p4)%list.

  (** logm0_pop_bimod.py:57-84 *)
  Definition get_unbounded_quad (whole c0e c1e c0l c1l : component) (params : rec A)
    : res (rec A) :=
    let* p1 := part_unbounded c0e params in
    let* p2 := part_unbounded c1e params in
    let* p3 := part_unbounded c0l params in
    let* p4 := part_unbounded c1l params in
    make (c_unames whole) (values p1 ++ values p2 ++ values p3 ++ values p4)%list.

  Definition get_bounded_m0pop_params :=
    get_bounded_quad LGM0_BIMOD LGM0_C0_EARLY LGM0_C1_EARLY LGM0_C0_LATE LGM0_C1_LATE.
  Definition get_unbounded_m0pop_params :=
    get_unbounded_quad LGM0_BIMOD LGM0_C0_EARLY LGM0_C1_EARLY LGM0_C0_LATE LGM0_C1_LATE.
  Definition get_bounded_m0pop_params_sats :=
    get_bounded_quad LGM0_BIMOD_SATS LGM0_C0_EARLY_SATS LGM0_C1_EARLY_SATS
      LGM0_C0_LATE_SATS LGM0_C1_LATE_SATS.
  Definition get_unbounded_m0pop_params_sats :=
    get_unbounded_quad LGM0_BIMOD_SATS LGM0_C0_EARLY_SATS LGM0_C1_EARLY_SATS
      LGM0_C0_LATE_SATS LGM0_C1_LATE_SATS.
  Definition get_bounded_logtc_params := get_bounded_pair LOGTC_BIMOD LOGTC_EARLY LOGTC_LATE.
  Definition get_unbounded_logtc_params := get_unbounded_pair LOGTC_BIMOD LOGTC_EARLY LOGTC_LATE.
  Definition get_bounded_early_index_params :=
    get_bounded_pair EARLY_INDEX_BIMOD EARLY_INDEX_ALPHA EARLY_INDEX_BETA.
  Definition get_unbounded_early_index_params :=
    get_unbounded_pair EARLY_INDEX_BIMOD EARLY_INDEX_ALPHA EARLY_INDEX_BETA.

  (** late_index_bimod.py:36-53.  As in the code, the variable holding the
      alpha values is overwritten by the beta values before it is used. *)
  Definition get_bounded_late_index_params (u_params : rec A) : res (rec A) :=
    let* late_params := part_bounded LATE_INDEX_ALPHA u_params in
    let* late_params := part_bounded LATE_INDEX_BETA u_params in
    make (c_names LATE_INDEX_BIMOD) (values late_params ++ values late_params)%list.

  (** late_index_bimod.py:56-70.  As in the code, [late_pnames] is overwritten
      by the beta names before it is used. *)
  Definition get_unbounded_late_index_params (params : rec A) : res (rec A) :=
    let late_pnames := c_names LATE_INDEX_ALPHA in
    let late_pnames := c_names LATE_INDEX_BETA in
    let* vals := getattrs params late_pnames in
    let* late_params := make (c_names LATE_INDEX_ALPHA) vals in
    let* late_u_params := get_unbounded_params LATE_INDEX_ALPHA late_params in
    let* vals := getattrs params late_pnames in
    let* late_params := make (c_names LATE_INDEX_BETA) vals in
    let* late_u_params := get_unbounded_params LATE_INDEX_BETA late_params in
    make (c_unames LATE_INDEX_BIMOD) (values late_u_params ++ values late_u_params)%list.

  (** ** bimod_censat_params.py *)

  (** bimod_censat_params.py:20-30 *)
  Definition COMPONENTS : list component :=
    [ TPCENS_FLEX; TP_SATS; LGM0_BIMOD; LGM0_BIMOD_SATS; LOGTC_BIMOD;
      EARLY_INDEX_BIMOD; LATE_INDEX_BIMOD; FEC; COV ].

  (** bimod_censat_params.py:19, 31-32 *)
  Definition DEFAULT_DIFFMAHPOP_PDICT : list (string * R) :=
    fold_left (fun acc c => dict_update acc (c_pdict c)) COMPONENTS [].

  (** bimod_censat_params.py:33 *)
  Definition POP_NAMES : list string := map fst DEFAULT_DIFFMAHPOP_PDICT.

  Definition rec_const (p : rec R) : rec A := map (fun kv => (fst kv, nconst (snd kv))) p.

  (** bimod_censat_params.py:34 *)
  Definition DEFAULT_DIFFMAHPOP_PARAMS : res (rec A) :=
    let* p := make_kw POP_NAMES DEFAULT_DIFFMAHPOP_PDICT in
    Ok (rec_const p).

  (** [DEFAULT_*_PARAMS] of a component *)
  Definition component_default (c : component) : res (rec A) :=
    let* p := c_default c in
    Ok (rec_const p).

  (** The unbounding functions of the nine components, in order. *)
  Definition UNBOUNDERS : list (rec A -> res (rec A)) :=
    [ get_unbounded_params TPCENS_FLEX; get_unbounded_params TP_SATS;
      get_unbounded_m0pop_params; get_unbounded_m0pop_params_sats;
      get_unbounded_logtc_params; get_unbounded_early_index_params;
      get_unbounded_late_index_params; get_unbounded_params FEC;
      get_unbounded_params COV ].

  (** The bounding functions of the nine components, in order. *)
  Definition BOUNDERS : list (rec A -> res (rec A)) :=
    [ get_bounded_params TPCENS_FLEX; get_bounded_params TP_SATS;
      get_bounded_m0pop_params; get_bounded_m0pop_params_sats;
      get_bounded_logtc_params; get_bounded_early_index_params;
      get_bounded_late_index_params; get_bounded_params FEC;
      get_bounded_params COV ].

  Fixpoint mapM {B C} (f : B -> res C) (l : list B) : res (list C) :=
    match l with
    | [] => Ok []
    | x :: l' => let* y := f x in let* ys := mapM f l' in Ok (y :: ys)
    end.

  (** bimod_censat_params.py:38-51, 52 *)
  Definition DEFAULT_DIFFMAHPOP_U_PARAMS : res (rec A) :=
    let* updicts := mapM (fun cf => let* d := component_default (fst cf) in snd cf d)
                      (combine COMPONENTS UNBOUNDERS) in
    let updict := fold_left dict_update updicts [] in
    make_kw (map fst updict) updict.

  (** bimod_censat_params.py:55-116: the tuple of the nine component tuples *)
  Definition get_component_model_params (params : rec A) : res (list (rec A)) :=
    mapM (fun c => select (c_names c) params) COMPONENTS.

  (** bimod_censat_params.py:119-190 *)
  Definition get_component_model_u_params (u_params : rec A) : res (list (rec A)) :=
    mapM (fun c => select (c_unames c) u_params) COMPONENTS.

  (** [for params in l: acc = acc._replace( **params._asdict())] *)
  Fixpoint replace_loop (acc : rec A) (l : list (rec A)) : res (rec A) :=
    match l with
    | [] => Ok acc
    | q :: l' => let* acc' := replace acc q in replace_loop acc' l'
    end.

  (** bimod_censat_params.py:193-235 *)
  Definition get_diffmahpop_params_from_u_params (u_params : rec A) : res (rec A) :=
    let* us := get_component_model_u_params u_params in
    let* ps := mapM (fun fu => fst fu (snd fu)) (combine BOUNDERS us) in
    let* dflt := DEFAULT_DIFFMAHPOP_PARAMS in
    replace_loop dflt ps.

  (** bimod_censat_params.py:238-277 *)
  Definition get_diffmahpop_u_params_from_params (params : rec A) : res (rec A) :=
    let* ps := get_component_model_params params in
    let* us := mapM (fun fp => fst fp (snd fp)) (combine UNBOUNDERS ps) in
    let* dflt := DEFAULT_DIFFMAHPOP_U_PARAMS in
    replace_loop dflt us.

  (** bimod_censat_params.py:280-285 *)
  Definition get_all_diffmahpop_params_from_varied (varied dflt : rec A) : res (rec A) :=
    replace dflt varied.

  (** bimod_censat_params.py:288-295.  [float(x)] is the identity. *)
  Definition get_varied_params_by_exclusion (all_params : rec A) (excluded : list string)
    : res (rec A) :=
    let varied_pdict :=
      filter (fun kv => negb (existsb (String.eqb (fst kv)) excluded)) all_params in
    make_kw (map fst varied_pdict) varied_pdict.
End Params.
