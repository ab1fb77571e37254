(** Concrete cases for the gradients: a differentiated truncated normal
    distribution, and a regular bin of centrals and of satellites for the
    published parameters. *)

From Coq Require Import Reals String List Bool Arith ZArith Lia Lra.
From Coquelicot Require Import Coquelicot.
From Verif Require Import Model_Num RealAux Model_Base Model_Kernels Model_Utils Model_PopBase Model_PopData
  Model_PopParams Model_PopKernels Model_PopMC Model_Grad Spec_Kernels Spec_Utils Spec_Pop Spec_PopMC Spec_TruncNorm
  Spec_Grad Proofs_Kernels Proofs_AD Proofs_PopBase Proofs_PopInterp Proofs_PopKernels Proofs_PopCov Proofs_PopTpeak
  Proofs_PopAll Proofs_PopProps Proofs_PopMC Proofs_PopMC2 Proofs_PopLoss Proofs_PopMC3 Proofs_PopMass
  Proofs_PopAD Proofs_PopAD4 Proofs_CholAD.
Import ListNotations.
Local Open Scope R_scope.
Local Open Scope string_scope.

(** ** The truncated normal distribution on duals *)

Definition truncnorm_dual (dx da db dl ds : Dual R) : Dual R :=
  let dz := ndiv (nsub dx dl) ds in
  let num := mkDual (RInt gauss (dval da) (dval dz)) (gauss (dval dz) * dder dz - gauss (dval da) * dder da) in
  let den := mkDual (RInt gauss (dval da) (dval db)) (gauss (dval db) * dder db - gauss (dval da) * dder da) in
  ndiv num den.

Lemma RInt_gauss_0 a b : RInt gauss a b = RInt gauss 0 b - RInt gauss 0 a.
Proof.
  pose proof (RInt_Chasles gauss 0 a b (gauss_int 0 a) (gauss_int a b)) as H.
  change ((RInt gauss 0 a : R) + RInt gauss a b = RInt gauss 0 b) in H. lra.
Qed.

Lemma derive_gauss_int z : is_derive (fun z => RInt gauss 0 z) z (gauss z).
Proof.
  apply (is_derive_RInt gauss (fun z => RInt gauss 0 z) 0 z).
  - apply filter_forall. intros y. exact (RInt_correct gauss 0 y (gauss_int 0 y)).
  - apply gauss_continuous.
Qed.

Lemma t_gauss_int x fa fb da db : tracks fa x da -> tracks fb x db ->
  tracks (fun y => RInt gauss (fa y) (fb y)) x
    (mkDual (RInt gauss (dval da) (dval db)) (gauss (dval db) * dder db - gauss (dval da) * dder da)).
Proof.
  intros [Va Da] [Vb Db]. split; cbn [dval dder]; [now rewrite Va, Vb|].
  apply (is_derive_ext (fun y => RInt gauss 0 (fb y) - RInt gauss 0 (fa y))).
  { intros y. now rewrite (RInt_gauss_0 (fa y)). }
  rewrite Va, Vb.
  replace (gauss (fb x) * dder db - gauss (fa x) * dder da)
    with (minus (scal (dder db) (gauss (fb x))) (scal (dder da) (gauss (fa x)))).
  2:{ unfold minus, plus, opp, scal. cbn. unfold mult. cbn. ring. }
  apply (is_derive_minus (fun y => RInt gauss 0 (fb y)) (fun y => RInt gauss 0 (fa y))).
  - apply (is_derive_comp (fun z => RInt gauss 0 z) fb x); [apply derive_gauss_int|exact Db].
  - apply (is_derive_comp (fun z => RInt gauss 0 z) fa x); [apply derive_gauss_int|exact Da].
Qed.

Lemma truncnorm_dual_exact : exact_truncnorm truncnorm_dual.
Proof.
  intros x fx fa fb fl fs dx da db dl ds Hx Ha Hb Hl Hs Ps [Z1 Z2].
  assert (Tz : tracks (fun y => (fx y - fl y) / fs y) x (ndiv (nsub dx dl) ds)).
  { apply (t_div x (fun y => _) fs); [now apply (t_sub x fx fl)|exact Hs|lra]. }
  assert (Tn : tracks (fun y => RInt gauss (fa y) ((fx y - fl y) / fs y)) x _)
    by (apply (t_gauss_int x fa (fun y => (fx y - fl y) / fs y)); [exact Ha|exact Tz]).
  assert (Td : tracks (fun y => RInt gauss (fa y) (fb y)) x _) by (apply (t_gauss_int x fa fb); [exact Ha|exact Hb]).
  pose proof (gauss_RInt_pos (fa x) (fb x) ltac:(lra)) as Pd.
  assert (T : tracks (fun y => RInt gauss (fa y) ((fx y - fl y) / fs y) / RInt gauss (fa y) (fb y)) x
    (truncnorm_dual dx da db dl ds)).
  { unfold truncnorm_dual. apply (t_div x (fun y => _) (fun y => _)); [exact Tn|exact Td|lra]. }
  assert (C : forall f d, tracks f x d -> continuous f x).
  { intros f d [_ D]. apply (ex_derive_continuous f). eexists; exact D. }
  assert (Near : locally x (fun y => fa y < (fx y - fl y) / fs y < fb y)).
  { pose proof (C _ _ Tz) as Cz. pose proof (C _ _ Ha) as Ca. pose proof (C _ _ Hb) as Cb.
    assert (L1 : locally x (fun y => 0 < (fx y - fl y) / fs y - fa y)).
    { assert (Cd : continuous (fun y => (fx y - fl y) / fs y - fa y) x)
        by (apply (continuous_minus (fun y => (fx y - fl y) / fs y) fa); assumption).
      apply (Cd (fun v => 0 < v)). apply (open_gt 0). cbn. lra. }
    assert (L2 : locally x (fun y => 0 < fb y - (fx y - fl y) / fs y)).
    { assert (Cd : continuous (fun y => fb y - (fx y - fl y) / fs y) x)
        by (apply (continuous_minus fb (fun y => (fx y - fl y) / fs y)); assumption).
      apply (Cd (fun v => 0 < v)). apply (open_gt 0). cbn. lra. }
    generalize (filter_and _ _ L1 L2). apply filter_imp. intros y [H1 H2]. lra. }
  assert (E : forall y, fa y < (fx y - fl y) / fs y < fb y ->
    RInt gauss (fa y) ((fx y - fl y) / fs y) / RInt gauss (fa y) (fb y) =
    truncnorm_cdf_R (fx y) (fa y) (fb y) (fl y) (fs y)).
  { intros y [H1 H2]. unfold truncnorm_cdf_R. cbv zeta. destruct Rle_dec; [lra|]. destruct Rle_dec; [lra|]. reflexivity. }
  destruct T as [TV TD]. split.
  - rewrite TV. apply E. lra.
  - apply (is_derive_ext_loc _ _ _ _ (filter_imp _ _ E Near)). exact TD.
Qed.
