(** Specification vocabulary for the test runs of the fitting scripts. *)

From Coq Require Import List Arith.
From Verif Require Import Model_Num Spec_Data.
Import ListNotations.

(** [secs] cuts [l] into [n] consecutive sections, as equal as possible, with the
    longer ones first. *)
Definition even_sections {A} (l : list A) (n : nat) (secs : list (list A)) : Prop :=
  balanced_partition l n secs /\
  forall i j a b, (i <= j)%nat -> nth_error secs i = Some a -> nth_error secs j = Some b -> (length b <= length a)%nat.
