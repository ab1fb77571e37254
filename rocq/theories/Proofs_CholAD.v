(** The Cholesky factor of a positive-definite matrix, and its derivative. *)

From Coq Require Import Reals String List Bool Arith ZArith Lia Lra.
From Coquelicot Require Import Coquelicot.
From Verif Require Import Model_Num RealAux Model_Base Model_Kernels Model_Utils Model_PopBase Model_PopKernels
  Model_Grad Spec_Utils Spec_Grad Proofs_AD Proofs_PopAD.
Import ListNotations.
Local Open Scope R_scope.

Lemma sumb_S n (f : nat -> R) : sum_below (S n) f = f 0%nat + sum_below n (fun i => f (S i)).
Proof. unfold sum_below. cbn [seq map Rsum]. rewrite <- seq_shift, map_map. reflexivity. Qed.

Lemma sumb_ext n (f g : nat -> R) : (forall i, (i < n)%nat -> f i = g i) -> sum_below n f = sum_below n g.
Proof.
  revert f g. induction n as [|n IH]; intros f g H; [reflexivity|]. rewrite !sumb_S.
  rewrite H by lia. f_equal. apply IH. intros; apply H; lia.
Qed.

Lemma sumb_plus n f g : sum_below n (fun i => f i + g i) = sum_below n f + sum_below n g.
Proof. revert f g. induction n as [|n IH]; intros; [unfold sum_below; cbn; ring|]. rewrite !sumb_S, IH. ring. Qed.
Lemma sumb_scal n c f : sum_below n (fun i => c * f i) = c * sum_below n f.
Proof. revert f. induction n as [|n IH]; intros; [unfold sum_below; cbn; ring|]. rewrite !sumb_S, IH. ring. Qed.

Definition symm (n : nat) (M : nat -> nat -> R) : Prop :=
  forall i j, (i < n)%nat -> (j < n)%nat -> M i j = M j i.

Definition schur (M : nat -> nat -> R) (i j : nat) : R :=
  M (S i) (S j) - M (S i) 0%nat / sqrt (M 0%nat 0%nat) * (M (S j) 0%nat / sqrt (M 0%nat 0%nat)).

Lemma quad_S n M v : symm (S n) M ->
  quad_form (S n) M v =
    M 0%nat 0%nat * v 0%nat * v 0%nat
    + 2 * v 0%nat * sum_below n (fun i => M (S i) 0%nat * v (S i))
    + quad_form n (fun i j => M (S i) (S j)) (fun i => v (S i)).
Proof.
  intros Hs. unfold quad_form at 1. rewrite sumb_S, sumb_S.
  rewrite (sumb_ext n (fun i => sum_below (S n) (fun j => v (S i) * M (S i) j * v j))
    (fun i => v 0%nat * (M (S i) 0%nat * v (S i))
              + sum_below n (fun j => v (S i) * M (S i) (S j) * v (S j)))).
  2:{ intros i Hi. rewrite sumb_S. ring. }
  rewrite sumb_plus, sumb_scal.
  rewrite (sumb_ext n (fun i => v 0%nat * M 0%nat (S i) * v (S i)) (fun i => v 0%nat * (M (S i) 0%nat * v (S i)))).
  2:{ intros i Hi. rewrite (Hs 0%nat (S i)) by lia. ring. }
  rewrite sumb_scal. unfold quad_form. ring.
Qed.

Lemma quad_schur n M w : 0 < M 0%nat 0%nat ->
  quad_form n (schur M) w =
    quad_form n (fun i j => M (S i) (S j)) w
    - sum_below n (fun i => M (S i) 0%nat * w i) * sum_below n (fun i => M (S i) 0%nat * w i) / M 0%nat 0%nat.
Proof.
  intros Hp. set (b := sum_below n (fun i => M (S i) 0%nat * w i)).
  assert (Hd : sqrt (M 0%nat 0%nat) * sqrt (M 0%nat 0%nat) = M 0%nat 0%nat) by (apply sqrt_sqrt; lra).
  assert (Hdp : 0 < sqrt (M 0%nat 0%nat)) by now apply sqrt_lt_R0.
  unfold quad_form.
  rewrite (sumb_ext n (fun i => sum_below n (fun j => w i * schur M i j * w j))
    (fun i => sum_below n (fun j => w i * M (S i) (S j) * w j) + (- (b / M 0%nat 0%nat)) * (M (S i) 0%nat * w i))).
  - rewrite sumb_plus, sumb_scal. fold b. field. lra.
  - intros i Hi.
    rewrite (sumb_ext n (fun j => w i * schur M i j * w j)
      (fun j => w i * M (S i) (S j) * w j + (- (M (S i) 0%nat * w i / M 0%nat 0%nat)) * (M (S j) 0%nat * w j))).
    + rewrite sumb_plus, sumb_scal. fold b. field. lra.
    + intros j Hj. unfold schur.
      replace (M (S i) 0%nat / sqrt (M 0%nat 0%nat) * (M (S j) 0%nat / sqrt (M 0%nat 0%nat)))
        with (M (S i) 0%nat * M (S j) 0%nat / (sqrt (M 0%nat 0%nat) * sqrt (M 0%nat 0%nat))) by (field; lra).
      rewrite Hd. field. lra.
Qed.

Lemma posdef_00 n M : symm (S n) M -> posdef (S n) M -> 0 < M 0%nat 0%nat.
Proof.
  intros Hs Hp. specialize (Hp (fun i => match i with O => 1 | S _ => 0 end)).
  rewrite quad_S in Hp by exact Hs.
  assert (Z1 : sum_below n (fun i => M (S i) 0%nat * 0) = 0).
  { rewrite (sumb_ext n _ (fun i => 0 * 0)) by (intros; ring). rewrite sumb_scal. ring. }
  assert (Z2 : quad_form n (fun i j => M (S i) (S j)) (fun i => 0) = 0).
  { unfold quad_form. rewrite (sumb_ext n _ (fun i => 0 * 0)); [rewrite sumb_scal; ring|].
    intros i _. rewrite (sumb_ext n _ (fun i => 0 * 0)) by (intros; ring). rewrite sumb_scal. ring. }
  rewrite Z1, Z2 in Hp. assert (HH : exists i, (i < S n)%nat /\ match i with O => 1 | S _ => 0 end <> 0).
  { exists 0%nat. split; [lia|lra]. }
  specialize (Hp HH). cbv beta iota in Hp. lra.
Qed.

Lemma posdef_schur n M : symm (S n) M -> posdef (S n) M -> posdef n (schur M).
Proof.
  intros Hs Hp. pose proof (posdef_00 n M Hs Hp) as H0. intros w (i & Hi & Hw).
  rewrite quad_schur by exact H0.
  set (b := sum_below n (fun i => M (S i) 0%nat * w i)).
  specialize (Hp (fun i => match i with O => - (b / M 0%nat 0%nat) | S i' => w i' end)).
  rewrite quad_S in Hp by exact Hs. cbv beta iota in Hp.
  change (sum_below n (fun i0 => M (S i0) 0%nat * w i0)) with b in Hp.
  assert (HH : exists i0, (i0 < S n)%nat /\ match i0 with O => - (b / M 0%nat 0%nat) | S i' => w i' end <> 0).
  { exists (S i). split; [lia|exact Hw]. }
  specialize (Hp HH).
  replace (M 0%nat 0%nat * - (b / M 0%nat 0%nat) * - (b / M 0%nat 0%nat) + 2 * - (b / M 0%nat 0%nat) * b)
    with (- (b * b / M 0%nat 0%nat)) in Hp by (field; lra).
  change (fun i0 => w i0) with w in Hp. lra.
Qed.

Lemma symm_schur n M : symm (S n) M -> symm n (schur M).
Proof. intros H i j Hi Hj. unfold schur. rewrite (H (S i) (S j)) by lia. ring. Qed.

(** What the elimination returns is the Cholesky factor. *)
Lemma cholesky_factor n : forall M, symm n M -> posdef n M ->
  let L := cholesky n M in
  (forall i j, (i < j)%nat -> L i j = 0) /\
  (forall i, (i < n)%nat -> 0 < L i i) /\
  (forall i j, (i < n)%nat -> (j < n)%nat -> sum_below n (fun k => L i k * L j k) = M i j).
Proof.
  induction n as [|n IH]; intros M Hs Hp; [refine (conj _ (conj _ _)); intros; lia || reflexivity|].
  pose proof (posdef_00 n M Hs Hp) as H0. pose proof (sqrt_lt_R0 _ H0) as Hd.
  destruct (IH (schur M) (symm_schur _ _ Hs) (posdef_schur _ _ Hs Hp)) as (I1 & I2 & I3).
  cbv zeta. refine (conj _ (conj _ _)).
  - intros [|i] [|j] Hij; try lia; [reflexivity|]. cbn. apply I1. lia.
  - intros [|i] Hi; [exact Hd|]. cbn. apply I2. lia.
  - intros i j Hi Hj. rewrite sumb_S.
    destruct i as [|i]; destruct j as [|j].
    + rewrite (sumb_ext n _ (fun _ => 0 * 0)); [|intros; cbn; reflexivity].
      rewrite sumb_scal. cbn. rewrite sqrt_sqrt; lra.
    + rewrite (sumb_ext n _ (fun k => 0 * cholesky n (schur M) j k)); [|intros; cbn; reflexivity].
      rewrite sumb_scal. cbn. rewrite (Hs 0%nat (S j)) by lia. field. lra.
    + rewrite (sumb_ext n _ (fun k => 0 * cholesky n (schur M) i k)); [|intros; cbn; ring].
      rewrite sumb_scal. cbn. field. lra.
    + transitivity (M (S i) 0%nat / sqrt (M 0%nat 0%nat) * (M (S j) 0%nat / sqrt (M 0%nat 0%nat)) + schur M i j).
      * f_equal. rewrite <- I3 by lia. apply sumb_ext. intros k _. reflexivity.
      * unfold schur. ring.
Qed.

Lemma t_cholesky x n : forall (M : R -> nat -> nat -> R) (DM : nat -> nat -> Dual R),
  (forall i j, (i < n)%nat -> (j < n)%nat -> tracks (fun y => M y i j) x (DM i j)) ->
  symm n (M x) -> posdef n (M x) ->
  forall i j, (i < n)%nat -> (j < n)%nat ->
    tracks (fun y => cholesky n (M y) i j) x (cholesky n DM i j).
Proof.
  induction n as [|n IH]; intros M DM HM Hs Hp i j Hi Hj; [lia|].
  pose proof (posdef_00 n (M x) Hs Hp) as H0. pose proof (sqrt_lt_R0 _ H0) as Hd.
  assert (Td : tracks (fun y => nsqrt (M y 0%nat 0%nat)) x (nsqrt (DM 0%nat 0%nat))).
  { apply (t_sqrt x (fun y => M y 0%nat 0%nat)); [apply HM; lia|exact H0]. }
  assert (Tc : forall i, (i < S n)%nat ->
    tracks (fun y => ndiv (M y i 0%nat) (nsqrt (M y 0%nat 0%nat))) x (ndiv (DM i 0%nat) (nsqrt (DM 0%nat 0%nat)))).
  { intros k Hk. apply (t_div x (fun y => M y k 0%nat) (fun y => nsqrt (M y 0%nat 0%nat))); [apply HM; lia|exact Td|].
    cbn. lra. }
  destruct i as [|i]; destruct j as [|j].
  - exact Td.
  - apply (t_const x).
  - apply Tc. lia.
  - cbn [cholesky].
    apply (IH (fun y i j => nsub (M y (S i) (S j))
      (nmul (ndiv (M y (S i) 0%nat) (nsqrt (M y 0%nat 0%nat))) (ndiv (M y (S j) 0%nat) (nsqrt (M y 0%nat 0%nat))))));
      try lia.
    + intros a b Ha Hb. apply (t_sub x (fun y => _) (fun y => _)); [apply HM; lia|].
      apply (t_mul x (fun y => _) (fun y => _)); apply Tc; lia.
    + exact (symm_schur n (M x) Hs).
    + exact (posdef_schur n (M x) Hs Hp).
Qed.
