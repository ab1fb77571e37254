(** Concrete cases for the gradients of component losses. *)

From Coq Require Import Reals String List Bool Arith ZArith Lia Lra.
From Coquelicot Require Import Coquelicot.
From Verif Require Import Model_Num RealAux Model_Base Model_Kernels Model_Utils Model_PopBase Model_PopData
  Model_PopParams Model_PopKernels Model_PopMC Model_CompFit Model_Grad Model_CompGrad Spec_Kernels Spec_Utils Spec_Pop Spec_PopMC
  Spec_TruncNorm Spec_Grad Spec_CompFit Spec_CompGrad Proofs_Kernels Proofs_PopBase Proofs_PopParams
  Proofs_PopKernels Proofs_PopCov Proofs_PopTpeak Proofs_PopAll Proofs_CompFit Proofs_CompGrad Proofs_PopMass Proofs_GradEx Proofs_GradEx2 Proofs_GradEx3.
Import ListNotations.
Local Open Scope R_scope.
Local Open Scope string_scope.

Lemma pdict_legal f : legal_for (index_component f) (c_pdict (index_component f)).
Proof.
  destruct f; (split; [reflexivity|]); intros k lo hi H; cbn in H;
    repeat (destruct H as [H|H]; [injection H as <- <- <-; eexists; split; [cbn; eauto 12|lra]|]); destruct H.
Qed.

Lemma index_example : forall f, exists us p, length us = length (c_pdict (index_component f)) /\
  get_bounded_params (index_component f)
    (combine (map (fun k => "u_" ++ k) (map fst (c_pdict (index_component f)))) us) = Ok p /\
  off_clip_index f p 12 10 (1/2).
Proof.
  intros f. set (c := index_component f).
  destruct (uparam_kernels_ok c _ (index_kernels_in f)) as [W _].
  destruct (proj2 (acts_bijection c _ _ W (acts_single c W)) _ (pdict_legal f)) as (u & _ & Hu & E). fold c in E.
  exists (map snd u), (c_pdict c). split; [|split].
  - rewrite map_length. unfold unbounded_for, shaped in Hu. apply (f_equal (@length string)) in Hu. now rewrite !map_length in Hu.
  - fold c. etransitivity; [|exact E]. f_equal. symmetry. apply (shaped_combine (c_unames c) u). exact Hu.
  - destruct (off_clips Cen (1/2) (fun _ => eq_refl) ltac:(discriminate)) as [(A1 & A2 & _) (B1 & B2 & _)].
    destruct f; cbn [off_clip_index]; auto; split; assumption.
Qed.

Lemma mass_example : forall c s comp, In (c, s, comp) mass_files ->
  provides comp ALL_PDICT /\
  off_clip_mass c s ALL_PDICT 10 (if String.eqb s "_early" then 1/2 else if String.eqb s "_late" then 1/2 else 1001/1000).
Proof.
  intros c s comp H. pose proof (proj1 all_smooth) as HL.
  destruct (off_clips Cen (1/2) (fun _ => eq_refl) ltac:(discriminate)) as [(_ & _ & _ & A3 & A4 & _) (_ & _ & _ & B3 & B4 & _)].
  destruct (off_clips Sat (1001/1000) ltac:(discriminate) (fun _ => eq_refl)) as [(_ & _ & _ & C3 & C4 & _) (_ & _ & _ & D3 & D4 & _)].
  cbn in H. destruct H as [E|[E|[E|[E|[E|[E|[E|[E|[]]]]]]]]]; injection E as <- <- <-;
    (split; [apply pop_provides_part; [cbn; tauto|exact HL]|assumption]).
Qed.

Lemma multimass_example : forall lgm t u, provides TPCENS_FLEX ALL_PDICT /\ misses ALL_PDICT lgm t u 0.
Proof.
  intros lgm t u. assert (P : provides TPCENS_FLEX ALL_PDICT).
  { apply pop_provides_part; [cbn; tauto|exact (proj1 all_smooth)]. }
  split; [exact P|]. unfold misses, frac_peaked_vs_lgm. destruct (utp_x0_ok _ lgm t P) as (x0 & E & _). rewrite E.
  cbn [bind map]. intros Q. injection Q as Q. unfold sigmoid, TPC_YLO, TPC_YHI, TPC_K in Q. cbn in Q.
  pose proof (logistic_bounds (5 * (u - x0))). lra.
Qed.
