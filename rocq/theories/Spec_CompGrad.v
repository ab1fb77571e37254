(** Specification vocabulary for the gradients of the losses of single
    population components. *)

From Coq Require Import Reals String List.
From Coquelicot Require Import Coquelicot.
From Verif Require Import Model_Num Model_Base Model_PopBase Model_PopData Model_PopKernels Model_CompFit Model_Grad
  Model_CompGrad Spec_TruncNorm Spec_Grad Spec_CompFit.
Import ListNotations.
Local Open Scope R_scope.
Local Open Scope string_scope.

(** The array [l] with [h] added to entry [i]. *)
Fixpoint bump (l : list R) (i : nat) (h : R) : list R :=
  match l, i with
  | [], _ => []
  | x :: r, O => (x + h) :: r
  | x :: r, S j => x :: bump r j h
  end.

(** [out] is the value of the loss at the array [l] and an array of its exact
    partial derivatives; the loss returns along every coordinate. *)
Definition exact_gradient_arr (loss : list R -> res R) (l : list R) (out : res (R * list R)) : Prop :=
  exists value grad, out = Ok (value, grad) /\ loss l = Ok value /\ length grad = length l /\
    forall i, (i < length l)%nat -> returns_with_derivative (fun h => loss (bump l i h)) value (nth i grad 0).

(** The same for a namedtuple. *)
Definition exact_gradient (loss : rec R -> res R) (p : rec R) (out : res (R * rec R)) : Prop :=
  exists value grad, out = Ok (value, grad) /\ loss p = Ok value /\ fields grad = fields p /\
    forall k, In k (fields p) -> exists D, getattr grad k = Ok D /\
      returns_with_derivative (fun h => loss (vary p k h)) value D.

(** The prediction of a kernel is not exactly at the switch of a clip.  (The
    clip of the early index is never reached by legal parameters.) *)
Definition off_clip_index (f : index_file) (p : rec R) (lgm t tp : R) : Prop :=
  match f with
  | LogtcEarly => raw_logtc "_early" p lgm t tp <> -(999/1000) /\ raw_logtc "_early" p lgm t tp <> 999/1000
  | LogtcLate => raw_logtc "_late" p lgm t tp <> -(999/1000) /\ raw_logtc "_late" p lgm t tp <> 999/1000
  | _ => True
  end.
Definition off_clip_mass (c : mass_coef) (s : string) (p : rec R) (t tp : R) : Prop :=
  match c with
  | C0 => raw_c0 s p t <> floor_c0 s p tp
  | C1 => raw_c1 s p t <> floor_c1 s p tp
  end.

(** The eight files of z=0 mass components. *)
Definition mass_files : list (mass_coef * string * component) :=
  [ (C0, "_early", LGM0_C0_EARLY); (C1, "_early", LGM0_C1_EARLY);
    (C0, "_late", LGM0_C0_LATE); (C1, "_late", LGM0_C1_LATE);
    (C0, "_early_sats", LGM0_C0_EARLY_SATS); (C1, "_early_sats", LGM0_C1_EARLY_SATS);
    (C0, "_late_sats", LGM0_C0_LATE_SATS); (C1, "_late_sats", LGM0_C1_LATE_SATS) ].

(** The modelled fraction of halos of mass [lgm] at time [t] that are past their
    peak at [u * t] is not exactly the measured fraction [y]. *)
Definition misses (p : rec R) (lgm t u y : R) : Prop := frac_peaked_vs_lgm p [u] lgm t <> Ok [y].

(** A version for duals of the truncated normal density (external) that
    differentiates it correctly inside its support. *)
Definition exact_truncnorm_pdf (F : Dual R -> Dual R -> Dual R -> Dual R -> Dual R -> Dual R) : Prop :=
  forall x fx fa fb fl fs dx da db dl ds,
    follows fx x dx -> follows fa x da -> follows fb x db -> follows fl x dl -> follows fs x ds ->
    0 < fs x -> fa x < (fx x - fl x) / fs x < fb x ->
    follows (fun y => truncnorm_pdf_R (fx y) (fa y) (fb y) (fl y) (fs y)) x (F dx da db dl ds).
