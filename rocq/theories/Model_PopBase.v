(** Python namedtuples, the bounding code that every population component
    shares, and the jax array functions the components use. *)

From Coq Require Import Reals String List Bool Arith.
From Verif Require Import Model_Num Model_Base Model_Kernels.
Import ListNotations.
Local Open Scope string_scope.

(** ** Namedtuples *)

(** A namedtuple: its fields in order, with their values. *)
Definition rec (A : Type) : Type := list (string * A).

Definition fields {A} (p : rec A) : list string := map fst p.
Definition values {A} (p : rec A) : list A := map snd p.

(** [getattr(p, key)] *)
Fixpoint getattr {A} (p : rec A) (key : string) : res A :=
  match p with
  | [] => Err AttributeError
  | (k, v) :: p' => if String.eqb k key then Ok v else getattr p' key
  end.

(** [[getattr(p, key) for key in keys]] *)
Fixpoint getattrs {A} (p : rec A) (keys : list string) : res (list A) :=
  match keys with
  | [] => Ok []
  | k :: keys' =>
      let* v := getattr p k in
      let* vs := getattrs p keys' in
      Ok (v :: vs)
  end.

(** [Params( *values)] for a namedtuple class with the given field names. *)
Definition make {A} (names : list string) (vals : list A) : res (rec A) :=
  if Nat.eqb (length names) (length vals) then Ok (combine names vals) else Err TypeError.

(** [key in dict] *)
Definition has_key {B} (d : list (string * B)) (key : string) : bool :=
  existsb (fun kv => String.eqb (fst kv) key) d.

(** [Params( **dict)]: keyword arguments, matched by name; a missing or an
    unexpected name raises TypeError. *)
Definition make_kw {B} (names : list string) (d : list (string * B)) : res (rec B) :=
  if forallb (fun k => existsb (String.eqb k) names) (map fst d) then
    match getattrs d names with
    | Ok vals => make names vals
    | Err _ => Err TypeError
    end
  else Err TypeError.

(** [OrderedDict.update]: a key that is present keeps its place and gets the
    new value, a new key goes to the end. *)
Definition dict_set {B} (d : list (string * B)) (k : string) (v : B) : list (string * B) :=
  if has_key d k
  then map (fun kv => if String.eqb (fst kv) k then (fst kv, v) else kv) d
  else d ++ [(k, v)].
Definition dict_update {B} (d e : list (string * B)) : list (string * B) :=
  fold_left (fun acc kv => dict_set acc (fst kv) (snd kv)) e d.

(** [p._replace( **p2._asdict())]: unknown names raise ValueError (TypeError
    from Python 3.13). *)
Definition replace {A} (p q : rec A) : res (rec A) :=
  if forallb (fun k => has_key p k) (fields q) then
    Ok (map (fun kv => (fst kv, match getattr q (fst kv) with Ok v => v | Err _ => snd kv end)) p)
  else Err ValueError.

(** ["u_" + key] *)
Definition uname (key : string) : string := "u_" ++ key.

(** ** Components *)

(** A component module: the dictionary of defaults (whose keys are the field
    names of its namedtuple) and the dictionary of bounds. *)
Record component : Type := mkComponent {
  c_pdict : list (string * R);
  c_bdict : list (string * (R * R))
}.

(** [Params._fields] and [UParams._fields] *)
Definition c_names (c : component) : list string := map fst (c_pdict c).
Definition c_unames (c : component) : list string := map uname (c_names c).

(** [namedtuple("Params", PDICT.keys())( **PDICT)] *)
Definition c_default (c : component) : res (rec R) := make_kw (c_names c) (c_pdict c).

(** [Params( **BOUNDS_PDICT)] *)
Definition c_pbounds (c : component) : res (rec (R * R)) := make_kw (c_names c) (c_bdict c).

(** Two dictionaries merged by [update], as in the *_bimod modules. *)
Definition c_merge (c d : component) : component :=
  mkComponent (dict_update (c_pdict c) (c_pdict d)) (dict_update (c_bdict c) (c_bdict d)).

Section Bounding.
  Context {A : Type} {N : Num A}.
  Local Open Scope num_scope.

  (** [K_BOUNDING] in every component module *)
  Definition K_BOUNDING : A := #(1 / 10).

  (** [_get_bounded_*_param] in every component module, e.g.
      diffmahpop_kernels/early_index_alpha.py:116-120 *)
  Definition get_bounded_param (u_param : A) (bound : R * R) : A :=
    let lo := #(fst bound) in
    let hi := #(snd bound) in
    let mid := #(1 / 2) * (lo + hi) in
    sigmoid u_param mid K_BOUNDING lo hi.

  (** [_get_unbounded_*_param], e.g. early_index_alpha.py:123-127 *)
  Definition get_unbounded_param (param : A) (bound : R * R) : A :=
    let lo := #(fst bound) in
    let hi := #(snd bound) in
    let mid := #(1 / 2) * (lo + hi) in
    inverse_sigmoid param mid K_BOUNDING lo hi.

  (** [vmap(f, in_axes=(0, 0))] over two arrays of the same length; jax raises
      ValueError when the lengths differ. *)
  Definition vmap2 {B C D} (f : B -> C -> D) (xs : list B) (ys : list C) : res (list D) :=
    if Nat.eqb (length xs) (length ys)
    then Ok (map (fun xy => f (fst xy) (snd xy)) (combine xs ys))
    else Err ValueError.

  (** [get_bounded_*_params] of a single-component module, e.g.
      early_index_alpha.py:139-148 *)
  Definition get_bounded_params (c : component) (u_params : rec A) : res (rec A) :=
    let* us := getattrs u_params (c_unames c) in
    let* b := c_pbounds c in
    let* ps := vmap2 get_bounded_param us (values b) in
    make (c_names c) ps.

  (** [get_unbounded_*_params], e.g. early_index_alpha.py:151-158 *)
  Definition get_unbounded_params (c : component) (params : rec A) : res (rec A) :=
    let* ps := getattrs params (c_names c) in
    let* b := c_pbounds c in
    let* us := vmap2 get_unbounded_param ps (values b) in
    make (c_unames c) us.

  (** ** jax array functions *)

  (** [x == y] *)
  Definition neqb (x y : A) : bool := (x <=? y) && (y <=? x).

  (** jnp.maximum and jnp.minimum: NaN if an argument is NaN. *)
  Definition nmaximum (x y : A) : A :=
    if y <=? x then x else if x <=? y then y else x + y.
  Definition nminimum (x y : A) : A :=
    if x <=? y then x else if y <=? x then y else x + y.

  (** jnp.clip(x, lo, hi) and jnp.clip(x, min=lo) *)
  Definition clip (x lo hi : A) : A := nminimum (nmaximum x lo) hi.
  Definition clip_min (x lo : A) : A := nmaximum x lo.

  (** jnp.linspace(start, stop, num): [num >= 2] equally spaced points from
      [start] to [stop], as [start*(1-s) + stop*s]. *)
  Definition linspace (start stop : A) (num : nat) : list A :=
    map (fun i => let s := #(INR i / INR (num - 1)) in start * (#1 - s) + stop * s)
      (seq 0 num).

  (** jnp.searchsorted(xp, x, side="right") on a sorted array: the number of
      entries that are at most [x]. *)
  Definition searchsorted_right (xp : list A) (x : A) : nat :=
    length (filter (fun v => v <=? x) xp).

  (** np.spacing(np.finfo(float32).eps) = 2^-46 in jax.numpy.interp *)
  Definition INTERP_EPS : A := #(/ 2 ^ 46).

  Definition nabs (x : A) : A := jwhere (x <? #0) (#0 - x) x.

  (** jnp.interp(x, xp, fp) (external; jax/_src/numpy/lax_numpy.py): the
      bracketing interval [i-1, i] by binary search, linear in it, constant
      outside the table. *)
  Definition interp (x : A) (xp fp : list A) : A :=
    let i := Nat.min (Nat.max (searchsorted_right xp x) 1) (length xp - 1) in
    let at_ l k := nth k l #0 in
    let df := at_ fp i - at_ fp (i - 1)%nat in
    let dx := at_ xp i - at_ xp (i - 1)%nat in
    let delta := x - at_ xp (i - 1)%nat in
    let dx0 := nabs dx <=? INTERP_EPS in
    let f := jwhere dx0 (at_ fp (i - 1)%nat)
               (at_ fp (i - 1)%nat + delta / (jwhere dx0 #1 dx) * df) in
    let f := jwhere (x <? at_ xp 0%nat) (at_ fp 0%nat) f in
    jwhere (at_ xp (length xp - 1)%nat <? x) (at_ fp (length fp - 1)%nat) f.

  (** jnp.mean *)
  Definition nsum (l : list A) : A := fold_left nadd l #0.
  Definition nmean (l : list A) : A := nsum l / #(INR (length l)).
End Bounding.
