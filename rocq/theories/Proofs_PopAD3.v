(** Dual-number differentiation of the covariance and of the peak times. *)

From Coq Require Import Reals String List Bool Arith ZArith Lia Lra.
From Coquelicot Require Import Coquelicot.
From Verif Require Import Model_Num RealAux Model_Base Model_Kernels Model_Utils Model_PopBase Model_PopData
  Model_PopParams Model_PopKernels Model_PopMC Model_Grad Spec_Utils Spec_Pop Spec_TruncNorm Spec_Grad Proofs_Kernels Proofs_AD
  Proofs_PopBase Proofs_PopInterp Proofs_PopKernels Proofs_PopCov Proofs_PopTpeak Proofs_PopAD Proofs_PopAD2 Proofs_CholAD.
Import ListNotations.
Local Open Scope R_scope.
Local Open Scope string_scope.

Lemma rel_cov_std x P D fm dm q v : cov_std (P x) (fm x) q = Ok v -> rt x P D -> tracks fm x dm ->
  rel (fun f d => tracks f x d) (fun y => cov_std (P y) (fm y) q) (cov_std D dm q).
Proof.
  intros Hx HP Hm. unfold cov_std in *.
  rget Hx HP f1 d1 H1 V1. rget Hx HP f2 d2 H2 V2. rget Hx HP f3 d3 H3 V3. unfold COV_LGM_K.
  apply (rel_ok (fun f d => tracks f x d) (fun y => _)). tk.
Qed.

Definition cpt (x : R) (f : R -> list R * list R) (d : list (Dual R) * list (Dual R)) : Prop :=
  LT x (fun y => fst (f y)) (fst d) /\ LT x (fun y => snd (f y)) (snd d).

Lemma rel_cov_params x P D fm dm v : get_cov_params (P x) (fm x) = Ok v -> rt x P D -> tracks fm x dm ->
  rel (cpt x) (fun y => get_cov_params (P y) (fm y)) (get_cov_params D dm).
Proof.
  intros Hx HP Hm. unfold get_cov_params in *.
  do 4 (eapply rel_bind; [exact Hx|intros a Ha; exact (rel_cov_std x P D fm dm _ a Ha HP Hm)|];
    let f := fresh "f" in let d := fresh "d" in let H := fresh "H" in let Hx' := fresh "Hx" in
    intros f d _ H Hx'; clear Hx; rename Hx' into Hx; cbn beta in Hx |- *).
  eapply rel_bind; [exact Hx| |].
  - intros a Ha. rewrite (rt_fields _ _ _ HP) in Ha.
    apply (rel_ext (LT x) (fun y => getattrs (P y) (filter is_rho (fields D))) _
             (getattrs D (filter is_rho (fields D)))); [|reflexivity|].
    + intros y. now rewrite (rt_fields _ _ _ HP).
    + exact (rel_gets x P D _ _ Ha HP).
  - intros fo do_ _ Ho _. cbn beta.
    apply (rel_ok (cpt x) (fun y => ([_; _; _; _], fo y))). split; [|exact Ho]. cbn [fst].
    unfold LT. do 4 (apply (LT_cons _ _ (fun y => _)); [eassumption|]). apply LT_nil.
Qed.

(** Matrices that follow entry by entry. *)
Definition mt (x : R) (n : nat) (f : R -> nat -> nat -> R) (d : nat -> nat -> Dual R) : Prop :=
  forall i j, (i < n)%nat -> (j < n)%nat -> tracks (fun y => f y i j) x (d i j).

Lemma t_neqb0 x f d : tracks f x d -> f x <> 0 -> locally x (fun y => neqb (f y) (nconst 0) = neqb d (nconst 0)).
Proof.
  intros H Hn. unfold neqb.
  pose proof (near_leb x f (fun _ => nconst 0) d (nconst 0) H (t_const x 0) Hn) as L1.
  pose proof (near_leb x (fun _ => nconst 0) f (nconst 0) d (t_const x 0) H (not_eq_sym Hn)) as L2.
  generalize (filter_and _ _ L1 L2). apply filter_imp. intros y [E1 E2].
  cbv beta in E1, E2. now rewrite E1, E2.
Qed.

Lemma dval_mul_0 (a : Dual R) : dval (nmul a (nconst 0)) = 0.
Proof. cbn. ring. Qed.

Lemma neqb_dual_0 (a : Dual R) : neqb (nmul a (nconst 0)) (nconst 0) = true.
Proof.
  unfold neqb. cbn [nleb Num_Dual]. unfold dleb. rewrite dval_mul_0. cbn.
  unfold Rleb. destruct Rle_dec; [reflexivity|lra].
Qed.
Lemma neqb_real_0 (a : R) : neqb (nmul a (nconst 0)) (nconst 0) = true.
Proof. apply neqb_R. cbn. ring. Qed.

Lemma corr4_sym r i j : corr4 r i j = corr4 r j i.
Proof.
  destruct i as [|[|[|[|i]]]]; destruct j as [|[|[|[|j]]]]; reflexivity.
Qed.

(** The correlation matrix of a list of ten entries, none of them zero. *)
Section Corr.
  Context {A : Type} {N : Num A}.
  Definition tri (l : list A) (i j : nat) : A :=
    nmul (nth (Nat.min (Z.to_nat (nth (i * 4 + j) (chol_indx 4) 0%Z)) 9) l (nconst 0))
         (if Nat.leb j i then nconst 1 else nconst 0).
  Definition corr_of (l : list A) (i j : nat) : A :=
    jwhere (neqb (tri l i j) (nconst 0)) (tri l j i) (tri l i j).
End Corr.

Lemma t_corr x fl dl : LT x fl dl -> length dl = 10%nat -> List.Forall (fun v : R => v <> 0) (fl x) ->
  forall i j, tracks (fun y => corr_of (fl y) i j) x (corr_of dl i j).
Proof.
  intros HL Hlen HF i j.
  assert (T : forall a b, tracks (fun y => tri (fl y) a b) x (tri dl a b)).
  { intros a b. unfold tri. apply (t_mul x (fun y => _) (fun y => _)).
    - apply (LT_nth x fl dl _ HL).
    - destruct (Nat.leb b a); apply t_const. }
  unfold corr_of. destruct (Nat.leb j i) eqn:E.
  - apply (t_where x (fun y => neqb (tri (fl y) i j) (nconst 0))); [|apply T|apply T].
    apply (t_neqb0 x (fun y => tri (fl y) i j)); [apply T|].
    unfold tri. rewrite E. rewrite Forall_forall in HF.
    pose proof (LT_length _ _ _ HL x) as Hx. rewrite Hlen in Hx.
    assert (Hn : nth (Nat.min (Z.to_nat (nth (i * 4 + j) (chol_indx 4) 0%Z)) 9) (fl x) (nconst 0) <> 0).
    { apply HF, nth_In. rewrite Hx. lia. }
    cbn in *. now rewrite Rmult_1_r.
  - assert (E1 : forall y, tri (fl y) j i = jwhere (neqb (tri (fl y) i j) (nconst 0)) (tri (fl y) j i) (tri (fl y) i j)).
    { intros y. assert (Z : neqb (tri (fl y) i j) (nconst 0) = true) by (unfold tri; rewrite E; apply neqb_real_0).
      now rewrite Z. }
    assert (E2 : neqb (tri dl i j) (nconst 0) = true) by (unfold tri; rewrite E; apply neqb_dual_0).
    rewrite E2. eapply tracks_ext; [exact E1|]. apply T.
Qed.

Definition covt (x : R) (f : R -> nat * (nat -> nat -> R)) (d : nat * (nat -> nat -> Dual R)) : Prop :=
  (forall y, fst (f y) = 4%nat) /\ fst d = 4%nat /\ mt x 4 (fun y => snd (f y)) (snd d) /\
  symm 4 (snd (f x)) /\ posdef 4 (snd (f x)).

Lemma chol10 : chol_ndim 10 = 4%nat.
Proof. reflexivity. Qed.

Lemma rel_cov x P D fm dm : legal_pop (P x) -> (forall k, In k rho_names -> val (P x) k <> 0) ->
  rt x P D -> tracks fm x dm ->
  rel (covt x) (fun y => get_diffmahpop_cov (P y) (fm y)) (get_diffmahpop_cov D dm).
Proof.
  intros HL Hr HP Hm.
  assert (PC : provides COV (P x)) by (apply pop_provides_part; [cbn; tauto|exact HL]).
  pose proof (pop_rho _ HL) as ER.
  destruct (cov_eval (P x) (fm x) PC ER) as (M & s0 & s1 & s2 & s3 & r0 & r1 & r2 & r3 & r4 & r5 & EM & PM & FM & _).
  destruct (cov_params_eval (P x) (fm x) PC ER) as (a0 & a1 & a2 & a3 & b0 & b1 & b2 & b3 & b4 & b5 &
    E & _ & _ & _ & _ & _ & _ & G0 & G1 & G2 & G3 & G4 & G5).
  assert (Hb : List.Forall (fun v : R => v <> 0) [b0; b1; b2; b3; b4; b5]).
  { assert (HH : forall k v, In k rho_names -> has (P x) k v -> v <> 0).
    { intros k v Hk Hv. specialize (Hr k Hk). unfold val in Hr.
      rewrite (in_getattr _ _ _ (proj1 PC) Hv) in Hr. exact Hr. }
    repeat constructor; (eapply HH; [|eassumption]; cbn; tauto). }
  apply rel_imp' with (T := fun f d => (forall y, fst (f y) = 4%nat) /\ fst d = 4%nat /\ mt x 4 (fun y => snd (f y)) (snd d)).
  { intros f d Hf (H1 & H2 & H3). refine (conj H1 (conj H2 (conj H3 _))).
    specialize (Hf x). rewrite EM in Hf. injection Hf as <-. cbn [snd]. split; [|exact PM].
    intros i j Hi Hj. rewrite !FM by assumption. rewrite corr4_sym. ring. }
  unfold get_diffmahpop_cov in *. eapply rel_bind; [exact EM|intros a Ha; exact (rel_cov_params x P D fm dm a Ha HP Hm)|].
  intros f d Hf [Hd Ho] _.
  specialize (Hf x). rewrite E in Hf. injection Hf as Hf.
  assert (Lds : length (fst d) = 4%nat).
  { rewrite <- (LT_length _ _ _ Hd x), <- Hf. reflexivity. }
  assert (Lof : length (snd d) = 6%nat).
  { rewrite <- (LT_length _ _ _ Ho x), <- Hf. reflexivity. }
  pose proof (fun y => LT_length _ _ _ Hd y) as Ldy. pose proof (fun y => LT_length _ _ _ Ho y) as Loy.
  rewrite Lds in Ldy. rewrite Lof in Loy.
  assert (L10 : forall (A : Type) (c : A) (u w : list A), length u = 4%nat -> length w = 6%nat ->
    length (map (fun _ => c) u ++ w)%list = 10%nat).
  { intros A c u w Hu Hw. rewrite app_length, map_length, Hu, Hw. reflexivity. }
  set (fl := fun y => (map (fun _ => nconst 1) (fst (f y)) ++ snd (f y))%list : list R).
  set (dl := (map (fun _ => nconst 1) (fst d) ++ snd d)%list : list (Dual R)).
  assert (HT : LT x fl dl).
  { unfold LT, fl, dl. apply (LT_app _ (fun y => _) _ (fun y => _)); [|exact Ho].
    apply (LT_map (fun f d => tracks f x d) _ (fun y _ => nconst 1) (fun _ => nconst 1) (fun y => fst (f y))); [exact Hd|].
    intros; apply t_const. }
  pose proof (t_corr x fl dl HT (L10 _ _ _ _ Lds Lof)) as TC.
  assert (HFx : List.Forall (fun v : R => v <> 0) (fl x)).
  { unfold fl. rewrite <- Hf. cbn [fst snd map]. apply Forall_app. split; [|exact Hb].
    repeat constructor; cbn; lra. }
  specialize (TC HFx).
  exists (fun y => (4%nat, cov_from_corr 4 (corr_of (fl y)) (fst (f y)))), (4%nat, cov_from_corr 4 (corr_of dl) (fst d)).
  split; [|split].
  - intros y. cbn beta. destruct (f y) as [u w] eqn:Ef. unfold cholesky_from_params.
    cbv beta iota zeta. specialize (Ldy y). specialize (Loy y). rewrite Ef in Ldy, Loy.
    rewrite (L10 _ _ _ _ Ldy Loy), chol10. unfold fl. rewrite Ef. reflexivity.
  - destruct d as [u w]. unfold cholesky_from_params. cbv beta iota zeta. cbn [fst snd] in Lds, Lof.
    rewrite (L10 _ _ _ _ Lds Lof), chol10. reflexivity.
  - split; [reflexivity|split; [reflexivity|]]. cbn [fst snd]. intros i j Hi Hj.
    unfold cov_from_corr, nmdot.
    assert (TD : forall a b, tracks (fun y => if Nat.eqb a b then nth a (fst (f y)) (nconst 0) else nconst 0) x
                   (if Nat.eqb a b then nth a (fst d) (nconst 0) else nconst 0)).
    { intros a b. destruct (Nat.eqb a b); [exact (LT_nth x (fun y => fst (f y)) (fst d) a Hd)|apply t_const]. }
    apply (t_nsumn x 4 (fun y k => _)). intros k Hk. apply (t_mul x (fun y => _) (fun y => _)); [|apply TD].
    apply (t_nsumn x 4 (fun y k => _)). intros k' Hk'. apply (t_mul x (fun y => _) (fun y => _)); [apply TD|].
    apply TC.
Qed.

(** The deviation drawn with a covariance. *)
Lemma t_deviation x unif unifs normal key f d : covt x f d ->
  LT x (fun y => deviation (jax_rng unif unifs normal : rng R) key (f y))
       (deviation (jax_rng unif unifs normal : rng (Dual R)) key d).
Proof.
  intros (H1 & H2 & H3 & H4 & H5). cbn [deviation jax_rng].
  apply (LT_ext _ (fun y => map (fun i => nsumn 4 (fun j => nmul (cholesky 4 (symmetrized (snd (f y))) i j) (nconst (normal key j)))) (seq 0 4))).
  { intros y. now rewrite H1. }
  rewrite H2.
  apply (LT_const_map (fun f d => tracks f x d) (fun y i => _)). intros i Hi. apply in_seq in Hi.
  apply (t_nsumn x 4 (fun y k => _)). intros j Hj. apply (t_mul x (fun y => _) (fun y => _)); [|apply t_const].
  assert (ES : forall i j, (i < 4)%nat -> (j < 4)%nat -> symmetrized (snd (f x)) i j = snd (f x) i j).
  { intros a b Ha Hb. unfold symmetrized. cbn. rewrite (H4 b a) by assumption. field. }
  apply (t_cholesky x 4 (fun y => symmetrized (snd (f y)))); try lia.
  - intros a b Ha Hb. unfold symmetrized. apply (t_div x (fun y => _) (fun y => _)); [|apply t_const|cbn; lra].
    apply (t_add x (fun y => _) (fun y => _)); apply H3; assumption.
  - intros a b Ha Hb. rewrite !ES by assumption. now apply H4.
  - intros w Hw. specialize (H5 w Hw). unfold quad_form in *.
    rewrite (sumb_ext 4 _ (fun i0 => sum_below 4 (fun j0 => w i0 * snd (f x) i0 j0 * w j0))); [exact H5|].
    intros a Ha. apply sumb_ext. intros b Hb. now rewrite ES.
Qed.
