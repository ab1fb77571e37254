(** Specification vocabulary for the peak times of whole populations. *)

From Coq Require Import Reals List.
From Verif Require Import Model_Num Model_Base Model_PopMC.
Import ListNotations.
Local Open Scope R_scope.

(** The halos [h], given as pairs (mass, observation time), get one peak time
    each: halo [i] of [n] gets the one that [single] draws for its own mass and
    time from piece [i] of the key [k] split into [n], and nothing else is drawn. *)
Definition one_draw_per_halo (single : key -> R -> R -> mc R) (k : key) (h : list (R * R))
    (run : mc (list R)) : Prop :=
  let n := List.length h in
  exists tps, run = (Ok tps, map (fun i => Uniform (Split k n i)) (seq 0 n)) /\ List.length tps = n /\
    forall i lgm t, nth_error h i = Some (lgm, t) -> exists tp, nth_error tps i = Some tp /\
      single (Split k n i) lgm t = (Ok tp, [Uniform (Split k n i)]).
