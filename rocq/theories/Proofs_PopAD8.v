(** Dual-number differentiation of the moments of a sample and of the losses. *)

From Coq Require Import Reals String List Bool Arith ZArith Lia Lra.
From Coquelicot Require Import Coquelicot.
From Verif Require Import Model_Num RealAux Model_Base Model_Kernels Model_Utils Model_PopBase Model_PopData
  Model_PopParams Model_PopKernels Model_PopMC Model_Grad Spec_Kernels Spec_Utils Spec_Pop Spec_PopMC Spec_TruncNorm
  Spec_Grad Proofs_Kernels Proofs_AD Proofs_PopBase Proofs_PopParams Proofs_PopAll Proofs_PopProps
  Proofs_PopInterp Proofs_PopKernels Proofs_PopCov Proofs_PopTpeak Proofs_PopMC Proofs_PopMC2 Proofs_PopLoss Proofs_PopMC3
  Proofs_PopAD Proofs_PopAD2 Proofs_PopAD3 Proofs_PopAD4 Proofs_PopAD5 Proofs_PopAD6 Proofs_PopAD7.
Import ListNotations.
Local Open Scope R_scope.

Lemma rel_mseq {Z X XD} (T : (R -> X) -> XD -> Prop) (h : R -> Z -> mc X) hd (l : list Z) :
  (forall z, In z l -> rel T (fun y => fst (h y z)) (fst (hd z))) ->
  rel (LTg T) (fun y => fst (mseq (map (h y) l))) (fst (mseq (map hd l))).
Proof.
  induction l as [|z l IH]; intros H.
  - exists (fun _ => []), []. split; [|split]; [reflexivity..|]. apply LT_nil.
  - destruct (H z (or_introl eq_refl)) as (f & d & E1 & E2 & T1).
    destruct IH as (fl & dl & E3 & E4 & T2); [intros; apply H; now right|].
    exists (fun y => f y :: fl y), (d :: dl). split; [|split].
    + intros y. cbn [map mseq]. rewrite fst_mbind, E1. cbn [bind]. rewrite fst_mbind, E3. reflexivity.
    + cbn [map mseq]. rewrite fst_mbind, E2. cbn [bind]. rewrite fst_mbind, E4. reflexivity.
    + now apply LT_cons.
Qed.

Lemma vmap3_repeat {X Y W} (f : X -> Y -> key -> mc W) a b n ks : length ks = n ->
  vmap3 f (repeat a n) (repeat b n) ks = mseq (map (f a b) ks).
Proof.
  intros E. unfold vmap3. rewrite !repeat_length, E, Nat.eqb_refl. cbn [andb]. f_equal.
  revert ks E. induction n as [|n IH]; intros [|k ks] E; try discriminate; [reflexivity|].
  cbn [repeat combine map fst snd]. f_equal. apply IH. now injection E.
Qed.

Lemma map_repeat' {X Y} (f : X -> Y) a n : map f (repeat a n) = repeat (f a) n.
Proof. induction n as [|n IH]; cbn; congruence. Qed.

(** ** Rows *)

Definition rowt (x : R) (n : nat) (f : R -> list R) (d : list (Dual R)) : Prop := LT x f d /\ length d = n.

Lemma rowt_length x n f d y : rowt x n f d -> length (f y) = n.
Proof. intros [H <-]. exact (LT_length _ _ _ H y). Qed.

Lemma LT_inv_cons {X XD} (T : (R -> X) -> XD -> Prop) fl d dl : LTg T fl (d :: dl) ->
  exists f gl, (forall y, fl y = f y :: gl y) /\ T f d /\ LTg T gl dl.
Proof.
  intros (L & E & F). inversion F; subst. exists x, (fun y => map (fun f => f y) l). split; [|split].
  - intros y. rewrite E. reflexivity.
  - assumption.
  - exists l. split; [reflexivity|assumption].
Qed.

Lemma LT_inv_nil {X XD} (T : (R -> X) -> XD -> Prop) fl : LTg T fl [] -> forall y, fl y = [].
Proof. intros (L & E & F) y. inversion F; subst. now rewrite E. Qed.

Lemma rowt_add x n f d g e : rowt x n f d -> rowt x n g e ->
  rowt x n (fun y => add_rows (f y) (g y)) (add_rows d e).
Proof.
  intros [H1 L1] [H2 L2]. revert n f g e H1 H2 L1 L2.
  induction d as [|a d IH]; intros n f g e H1 H2 L1 L2.
  - destruct e; [|cbn in *; congruence]. split; [|exact L1].
    apply (LT_ext _ (fun _ => [])); [|apply LT_nil]. intros y. now rewrite (LT_inv_nil _ _ H1 y).
  - destruct e as [|b e]; [cbn in *; congruence|].
    destruct (LT_inv_cons _ _ _ _ H1) as (f1 & f2 & E1 & T1 & R1).
    destruct (LT_inv_cons _ _ _ _ H2) as (g1 & g2 & E2 & T2 & R2).
    destruct n as [|n]; [discriminate|]. cbn in L1, L2. injection L1 as L1. injection L2 as L2.
    destruct (IH n f2 g2 e R1 R2 L1 L2) as [K1 K2].
    split; [|cbn [add_rows length]; now rewrite K2].
    apply (LT_ext _ (fun y => nadd (f1 y) (g1 y) :: add_rows (f2 y) (g2 y))).
    + intros y. rewrite E1, E2. reflexivity.
    + cbn [add_rows]. apply (LT_cons (fun f d => tracks f x d) (fun y => nadd (f1 y) (g1 y))); [|exact K1].
      now apply (t_add x f1 g1).
Qed.

Lemma rowt_sum x n tbl dtbl : LTg (rowt x n) tbl dtbl ->
  rowt x n (fun y => sum_axis0 n (tbl y)) (sum_axis0 n dtbl).
Proof.
  revert tbl. induction dtbl as [|d dtbl IH]; intros tbl H.
  - split.
    + apply (LT_ext _ (fun _ => repeat (nconst 0) n)); [intros y; now rewrite (LT_inv_nil _ _ H y)|].
      cbn [sum_axis0 fold_right]. clear. induction n as [|n IH]; [apply LT_nil|].
      cbn [repeat]. apply (LT_cons _ (fun _ => nconst 0)); [apply t_const|exact IH].
    + cbn. apply repeat_length.
  - destruct (LT_inv_cons _ _ _ _ H) as (f & gl & E & T & HR).
    destruct (rowt_add x n f d _ _ T (IH gl HR)) as [K1 K2]. split; [|exact K2].
    eapply LT_ext; [|exact K1]. intros y. cbn beta. now rewrite E.
Qed.

Lemma rowt_map x n f d (h : R -> R) hd : rowt x n f d ->
  (forall g e, tracks g x e -> tracks (fun y => h (g y)) x (hd e)) ->
  rowt x n (fun y => map h (f y)) (map hd d).
Proof.
  intros [H1 H2] H. split; [|now rewrite map_length].
  exact (LT_map (fun f d => tracks f x d) (fun f d => tracks f x d) (fun _ => h) hd f d H1 H).
Qed.

Lemma rowt_combine x n f d g e (h : R * R -> R) hd : rowt x n f d -> rowt x n g e ->
  (forall f d, tracks (fun y => fst (f y)) x (fst d) /\ tracks (fun y => snd (f y)) x (snd d) ->
     tracks (fun y => h (f y)) x (hd d)) ->
  rowt x n (fun y => map h (combine (f y) (g y))) (map hd (combine d e)).
Proof.
  intros [H1 L1] [H2 L2] H. split; [|rewrite map_length, combine_length, L1, L2; apply Nat.min_id].
  refine (LT_map (fun (f : R -> R * R) d => tracks (fun y => fst (f y)) x (fst d) /\ tracks (fun y => snd (f y)) x (snd d))
           (fun f d => tracks f x d) (fun _ => h) hd (fun y => combine (f y) (g y)) (combine d e) _ H).
  exact (LT_combine _ _ f d g e H1 H2).
Qed.

Lemma rows_scale x n tbl dtbl w dw : LTg (rowt x n) tbl dtbl -> LT x w dw ->
  LTg (rowt x n) (fun y => scale_rows (tbl y) (w y)) (scale_rows dtbl dw).
Proof.
  intros H1 H2. unfold scale_rows.
  refine (LT_map (fun (f : R -> list R * R) d => rowt x n (fun y => fst (f y)) (fst d) /\ tracks (fun y => snd (f y)) x (snd d))
           (rowt x n) (fun _ a => map (fun x => nmul x (snd a)) (fst a)) _ (fun y => combine (tbl y) (w y)) _ _ _).
  - exact (LT_combine _ _ tbl dtbl w dw H1 H2).
  - intros f d [[R1 R2] T]. split; [|now rewrite map_length].
    refine (LT_map (fun f d => tracks f x d) (fun f d => tracks f x d) (fun y v => nmul v (snd (f y)))
             (fun v => nmul v (snd d)) (fun y => fst (f y)) (fst d) R1 _).
    intros g e Hg. exact (t_mul x g (fun y => snd (f y)) e (snd d) Hg T).
Qed.

Lemma rows_sq_dev x n tbl dtbl r dr : LTg (rowt x n) tbl dtbl -> rowt x n r dr ->
  LTg (rowt x n) (fun y => sq_dev (tbl y) (r y)) (sq_dev dtbl dr).
Proof.
  intros H1 H2. unfold sq_dev.
  refine (LT_map (rowt x n) (rowt x n)
            (fun y row => map (fun a => nmul (nsub (fst a) (snd a)) (nsub (fst a) (snd a))) (combine row (r y))) _ tbl dtbl H1 _).
  intros f d Hf. apply (rowt_combine x n f d r dr (fun a => nmul (nsub (fst a) (snd a)) (nsub (fst a) (snd a)))); auto.
  intros g e [G1 G2].
  apply (t_mul x (fun y => nsub (fst (g y)) (snd (g y))) (fun y => nsub (fst (g y)) (snd (g y))));
    apply (t_sub x (fun y => fst (g y)) (fun y => snd (g y))); assumption.
Qed.

Lemma LT_pos x fl dl : LT x fl dl -> (forall v, In v (fl x) -> 0 < v) ->
  LTg (fun f d => tracks f x d /\ 0 < f x) fl dl.
Proof.
  revert fl. induction dl as [|d dl IH]; intros fl H Hp.
  - apply (LT_ext _ (fun _ => [])); [|apply LT_nil]. intros y. now rewrite (LT_inv_nil _ _ H y).
  - destruct (LT_inv_cons _ _ _ _ H) as (f & gl & E & T & HR).
    apply (LT_ext _ (fun y => f y :: gl y)); [intros y; now rewrite E|].
    apply LT_cons.
    + split; [exact T|]. apply Hp. rewrite E. now left.
    + apply IH; [exact HR|]. intros v Hv. apply Hp. rewrite E. now right.
Qed.

(** ** Moments *)

Definition momt (x : R) (n : nat) (f : R -> list R * list R * list R)
  (d : list (Dual R) * list (Dual R) * list (Dual R)) : Prop :=
  rowt x n (fun y => fst (fst (f y))) (fst (fst d)) /\ rowt x n (fun y => snd (fst (f y))) (snd (fst d)).

Lemma t_moments x n r dr : LTg (hpt x n) r dr -> dr <> [] ->
  (forall s, In s (snd (fst (moments n (r x)))) -> 0 < s) ->
  momt x n (fun y => moments n (r y)) (moments n dr).
Proof.
  intros H Hne Hs.
  assert (Hn : INR (length dr) <> 0) by (destruct dr; [congruence|]; apply not_0_INR; discriminate).
  assert (LE : LTg (rowt x n) (fun y => map pr_log_mah_early (r y)) (map pr_log_mah_early dr)).
  { apply (LT_map (hpt x n) (rowt x n) (fun _ => pr_log_mah_early)); [exact H|]. intros f d (A1 & _ & _ & A4 & _). now split. }
  assert (LL : LTg (rowt x n) (fun y => map pr_log_mah_late (r y)) (map pr_log_mah_late dr)).
  { apply (LT_map (hpt x n) (rowt x n) (fun _ => pr_log_mah_late)); [exact H|]. intros f d (_ & A1 & _ & _ & A4). now split. }
  assert (LF : LT x (fun y => map pr_frac (r y)) (map pr_frac dr)).
  { apply (LT_map (hpt x n) (fun f d => tracks f x d) (fun _ => pr_frac)); [exact H|]. intros f d (_ & _ & A1 & _ & _). exact A1. }
  assert (TW : tracks (fun _ => ndiv (nconst 1) (nconst (INR (length dr)))) x (ndiv (nconst 1) (nconst (INR (length dr))))).
  { apply (t_div x (fun _ => nconst 1) (fun _ => nconst (INR (length dr)))); [apply t_const..|exact Hn]. }
  assert (WE : LT x (fun y => map (fun f => nmul f (ndiv (nconst 1) (nconst (INR (length dr))))) (map pr_frac (r y)))
                 (map (fun f => nmul f (ndiv (nconst 1) (nconst (INR (length dr))))) (map pr_frac dr))).
  { refine (LT_map (fun f d => tracks f x d) (fun f d => tracks f x d) (fun _ f => nmul f (ndiv (nconst 1) (nconst (INR (length dr)))))
             _ _ _ LF _). intros f d Hf. exact (t_mul x f (fun _ => _) d _ Hf TW). }
  assert (LF1 : LT x (fun y => map (fun f => nsub (nconst 1) f) (map pr_frac (r y)))
                 (map (fun f => nsub (nconst 1) f) (map pr_frac dr))).
  { refine (LT_map (fun f d => tracks f x d) (fun f d => tracks f x d) (fun _ f => nsub (nconst 1) f) _ _ _ LF _).
    intros f d Hf. exact (t_sub x (fun _ => nconst 1) f _ d (t_const x 1) Hf). }
  assert (WL : LT x (fun y => map (fun f => nmul f (ndiv (nconst 1) (nconst (INR (length dr))))) (map (fun f => nsub (nconst 1) f) (map pr_frac (r y))))
                 (map (fun f => nmul f (ndiv (nconst 1) (nconst (INR (length dr))))) (map (fun f => nsub (nconst 1) f) (map pr_frac dr)))).
  { refine (LT_map (fun f d => tracks f x d) (fun f d => tracks f x d) (fun _ f => nmul f (ndiv (nconst 1) (nconst (INR (length dr)))))
             _ _ _ LF1 _). intros f d Hf. exact (t_mul x f (fun _ => _) d _ Hf TW). }
  assert (EL : forall y, length (r y) = length dr) by exact (LT_length _ _ _ H).
  pose proof (rowt_add x n _ _ _ _ (rowt_sum x n _ _ (rows_scale x n _ _ _ _ LE WE))
                (rowt_sum x n _ _ (rows_scale x n _ _ _ _ LL WL))) as MU.
  pose proof (rowt_add x n _ _ _ _ (rowt_sum x n _ _ (rows_scale x n _ _ _ _ (rows_sq_dev x n _ _ _ _ LE MU) WE))
                (rowt_sum x n _ _ (rows_scale x n _ _ _ _ (rows_sq_dev x n _ _ _ _ LL MU) WL))) as VAR.
  unfold momt, moments in *. cbn [fst snd] in *. rewrite !map_length in *. rewrite EL in Hs.
  split.
  - destruct MU as [M1 M2]. split; [|exact M2]. eapply LT_ext; [|exact M1].
    intros y. cbn beta. rewrite !map_length, EL. reflexivity.
  - destruct VAR as [M1 M2]. split; [|rewrite map_length; exact M2].
    eapply LT_ext; [|eapply (LT_map (fun f d => tracks f x d /\ 0 < f x) (fun f d => tracks f x d) (fun _ => nsqrt) nsqrt);
      [apply (LT_pos x _ _ M1)|]].
    + intros y. cbn beta. rewrite !map_length, EL. reflexivity.
    + intros v Hv. apply (in_map nsqrt) in Hv. apply Hs in Hv. cbn [nsqrt Num_R] in Hv.
      destruct (Rlt_or_le 0 v) as [|L]; [assumption|]. rewrite sqrt_neg_0 in Hv; lra.
    + intros f d [T1 T2]. now apply t_sqrt.
Qed.

Lemma rel_mse x n f d (l : list R) : rowt x n f d -> length l = n -> (0 < n)%nat ->
  rel (fun f d => tracks f x d) (fun y => mse (f y) l) (mse d (map dlift l)).
Proof.
  intros H El Hn. exists (fun y => pop_mse (f y) l), (pop_mse d (map dlift l)). split; [|split].
  - intros y. unfold mse. rewrite (rowt_length _ _ _ _ y H), El, Nat.eqb_refl. reflexivity.
  - unfold mse. rewrite map_length, (proj2 H), El, Nat.eqb_refl. reflexivity.
  - unfold pop_mse.
    assert (HL : rowt x n (fun _ => l) (map dlift l)) by (split; [apply LT_lift|now rewrite map_length]).
    assert (HC : rowt x n (fun y => map (fun xy => let d := nsub (snd xy) (fst xy) in nmul d d) (combine (f y) l))
                   (map (fun xy => let d := nsub (snd xy) (fst xy) in nmul d d) (combine d (map dlift l)))).
    { apply (rowt_combine x n f d (fun _ => l) (map dlift l) (fun xy => let d := nsub (snd xy) (fst xy) in nmul d d)); auto.
      intros g e [G1 G2]. cbv zeta.
      apply (t_mul x (fun y => nsub (snd (g y)) (fst (g y))) (fun y => nsub (snd (g y)) (fst (g y))));
        apply (t_sub x (fun y => snd (g y)) (fun y => fst (g y))); assumption. }
    apply (t_nmean x _ _ (proj1 HC)). intros E. pose proof (proj2 HC) as E2. rewrite E in E2. cbn in E2. lia.
Qed.

(** ** Losses *)

Section Losses.
  Context (F : Dual R -> Dual R -> Dual R -> Dual R -> Dual R -> Dual R) (HF : exact_truncnorm F).
  Context (unif : key -> R) (unifs normal : key -> nat -> R).
  Context (x : R) (P : R -> rec R) (D : rec (Dual R)) (HP : rt x P D) (HS : smooth_pop (P x)).
  Context (lgt0 : R).
  Local Notation GR := (jax_rng unif unifs normal : rng R).
  Local Notation GD := (jax_rng unif unifs normal : rng (Dual R)).

  Lemma rel_sample g tarr m t k : (forall s, In s tarr -> 0 < s) ->
    (forall i, (i < 200)%nat -> regular_halo g (P x) tarr m t lgt0 (unif (Split (Split k 200 i) 2 0))) ->
    rel (LTg (hpt x (length tarr)))
      (fun y => fst (mc_diffmah_halo_sample truncnorm_cdf_R GR g (P y) tarr m t k lgt0 200))
      (fst (mc_diffmah_halo_sample F GD g D (map dlift tarr) (dlift m) (dlift t) k (dlift lgt0) 200)).
  Proof.
    intros Ht HR. unfold mc_diffmah_halo_sample, mc_diffmah_single_vmap. cbv zeta.
    rewrite (map_repeat' (nadd (dlift m))), (map_repeat' (nadd (dlift t))). rewrite vmap3_repeat by apply split_length.
    apply (rel_ext _ (fun y => fst (mseq (map (fun k => mc_diffmah_single truncnorm_cdf_R GR g (P y) tarr
                         (nadd m (nconst 0)) (nadd t (nconst 0)) k lgt0) (split k 200)))) _
             (fst (mseq (map (fun k => mc_diffmah_single F GD g D (map dlift tarr) (nadd (dlift m) (nconst 0))
                         (nadd (dlift t) (nconst 0)) k (dlift lgt0)) (split k 200))))); [|reflexivity|].
    - intros y. rewrite (map_repeat' (nadd m)), (map_repeat' (nadd t)). rewrite vmap3_repeat by apply split_length. reflexivity.
    - apply (rel_mseq (hpt x (length tarr)) (fun y k => mc_diffmah_single truncnorm_cdf_R GR g (P y) tarr
                         (nadd m (nconst 0)) (nadd t (nconst 0)) k lgt0)).
      intros k' Hk'. unfold split in Hk'. apply in_map_iff in Hk'. destruct Hk' as (i & <- & Hi). apply in_seq in Hi.
      apply (rel_single F HF unif unifs normal x P D HP HS tarr Ht lgt0 (fun _ => nadd m (nconst 0))
               (fun _ => nadd t (nconst 0))).
      + apply (t_add x (fun _ => m) (fun _ => nconst 0)); [apply tracks_lift|apply t_const].
      + apply (t_add x (fun _ => t) (fun _ => nconst 0)); [apply tracks_lift|apply t_const].
      + cbn [nadd nconst Num_R]. rewrite !Rplus_0_r. apply HR. lia.
  Qed.

  Lemma rel_singlebin g b k : regular_bin unif unifs normal g (P x) lgt0 b k ->
    length (bin_mean b) = length (bin_tarr b) -> length (bin_std b) = length (bin_tarr b) ->
    rel (fun f d => tracks f x d)
      (fun y => fst (loss_mah_moments_singlebin truncnorm_cdf_R GR g (P y) b k lgt0))
      (fst (loss_mah_moments_singlebin F GD g D (lift_bin b) k (dlift lgt0))).
  Proof.
    intros (HN & Ht & HR & HV) L1 L2.
    destruct (rel_sample g (bin_tarr b) (bin_lgm_obs b) (bin_t_obs b) k Ht HR) as (r & dr & E1 & E2 & T).
    assert (Hn : (0 < length (bin_tarr b))%nat) by (destruct (bin_tarr b); [congruence|cbn; lia]).
    assert (EP : forall y, fst (predict_mah_moments_singlebin truncnorm_cdf_R GR g (P y) (bin_tarr b) (bin_lgm_obs b) (bin_t_obs b) k lgt0)
                 = Ok (moments (length (bin_tarr b)) (r y))).
    { intros y. unfold predict_mah_moments_singlebin. rewrite fst_mbind. unfold NH_PER_M0BIN. rewrite E1. reflexivity. }
    assert (ED : fst (predict_mah_moments_singlebin F GD g D (map dlift (bin_tarr b)) (dlift (bin_lgm_obs b)) (dlift (bin_t_obs b)) k (dlift lgt0))
                 = Ok (moments (length (bin_tarr b)) dr)).
    { unfold predict_mah_moments_singlebin. rewrite fst_mbind. unfold NH_PER_M0BIN. rewrite E2, map_length. reflexivity. }
    assert (DN : dr <> []).
    { intros ->. specialize (E1 x).
      destruct (mc_diffmah_halo_sample truncnorm_cdf_R GR g (P x) (bin_tarr b) (bin_lgm_obs b) (bin_t_obs b) k lgt0 200) as [o tr] eqn:EQ.
      cbn [fst] in E1. subst o. apply halo_sample_inv in EQ. destruct EQ as [EL _].
      rewrite (LT_length _ _ _ T x) in EL. discriminate. }
    assert (MT := t_moments x (length (bin_tarr b)) r dr T DN).
    assert (MT' : momt x (length (bin_tarr b)) (fun y => moments (length (bin_tarr b)) (r y)) (moments (length (bin_tarr b)) dr)).
    { apply MT. destruct (moments (length (bin_tarr b)) (r x)) as [[mean std] fp] eqn:EM. cbn [fst snd].
      apply (HV mean std fp). rewrite EP. now rewrite EM. }
    clear MT. destruct MT' as [M1 M2].
    destruct (rel_mse x _ _ _ (bin_mean b) M1 L1 Hn) as (f1 & d1 & A1 & A2 & A3).
    destruct (rel_mse x _ _ _ (bin_std b) M2 L2 Hn) as (f2 & d2 & B1 & B2 & B3).
    exists (fun y => nadd (f1 y) (f2 y)), (nadd d1 d2). split; [|split].
    - intros y. unfold loss_mah_moments_singlebin. rewrite fst_mbind, EP. cbn [bind].
      specialize (A1 y). specialize (B1 y). destruct (moments (length (bin_tarr b)) (r y)) as [[mean std] fp]. cbn [fst snd] in *.
      rewrite fst_mbind. cbn [mlift fst]. rewrite A1. cbn [bind]. rewrite fst_mbind. cbn [mlift fst]. rewrite B1. reflexivity.
    - unfold loss_mah_moments_singlebin. rewrite fst_mbind. cbn [lift_bin bin_tarr bin_lgm_obs bin_t_obs bin_mean bin_std].
      rewrite ED. cbn [bind].
      destruct (moments (length (bin_tarr b)) dr) as [[mean std] fp]. cbn [fst snd] in *.
      rewrite fst_mbind. cbn [mlift fst]. rewrite A2. cbn [bind]. rewrite fst_mbind. cbn [mlift fst]. rewrite B2. reflexivity.
    - now apply (t_add x f1 f2).
  Qed.

  Lemma combine_map_l {X Y Z} (f : X -> Z) (a : list X) (b : list Y) :
    combine (map f a) b = map (fun z => (f (fst z), snd z)) (combine a b).
  Proof. revert b. induction a as [|u a IH]; intros [|v b]; cbn; congruence. Qed.

  Lemma in_combine_split {X} (l : list X) k b k' : In (b, k') (combine l (split k (length l))) ->
    exists i, nth_error l i = Some b /\ k' = Split k (length l) i.
  Proof.
    intros H. destruct (In_nth_error _ _ H) as [i Hi]. exists i.
    assert (HI : (i < length l)%nat).
    { pose proof (proj1 (nth_error_Some _ _) (ltac:(rewrite Hi; discriminate) : nth_error (combine l (split k (length l))) i <> None)) as B.
      rewrite combine_length, split_length in B. lia. }
    destruct (nth_error l i) as [b'|] eqn:E; [|apply nth_error_None in E; lia].
    rewrite (nth_combine l _ i b' _ E (split_nth k (length l) i HI)) in Hi. injection Hi as <- <-. now split.
  Qed.

  Lemma rel_multibin g bins k : regular_bins unif unifs normal g (P x) bins k lgt0 -> well_shaped bins ->
    rel (fun f d => tracks f x d)
      (fun y => fst (loss_mah_moments_multibin truncnorm_cdf_R GR g (P y) bins k lgt0))
      (fst (loss_mah_moments_multibin F GD g D (map lift_bin bins) k (dlift lgt0))).
  Proof.
    intros (HN & HR) HW.
    assert (Q : rel (LT x)
       (fun y => fst (mseq (map (fun a => loss_mah_moments_singlebin truncnorm_cdf_R GR g (P y) (fst a) (snd a) lgt0)
                              (combine bins (split k (length bins))))))
       (fst (mseq (map (fun a => loss_mah_moments_singlebin F GD g D (lift_bin (fst a)) (snd a) (dlift lgt0))
                              (combine bins (split k (length bins))))))).
    { apply (rel_mseq (fun f d => tracks f x d) (fun y a => loss_mah_moments_singlebin truncnorm_cdf_R GR g (P y) (fst a) (snd a) lgt0)).
      intros [b k'] HI. cbn [fst snd]. destruct (in_combine_split _ _ _ _ HI) as (i & Hb & ->).
      destruct (HW b (nth_error_In _ _ Hb)) as [W1 W2]. apply rel_singlebin; auto. }
    destruct Q as (fl & dl & E1 & E2 & T).
    exists (fun y => nmean (fl y)), (nmean dl). split; [|split].
    - intros y. unfold loss_mah_moments_multibin. rewrite fst_mbind, E1. reflexivity.
    - unfold loss_mah_moments_multibin. rewrite fst_mbind, map_length, combine_map_l, map_map. cbn [fst snd].
      rewrite E2. reflexivity.
    - apply t_nmean; [exact T|]. intros ->. specialize (E1 x).
      destruct (mseq _) as [o tr] eqn:EQ in E1. cbn [fst] in E1. subst o.
      destruct (mseq_map_inv _ _ _ _ EQ) as [EL _]. rewrite (LT_length _ _ _ T x) in EL.
      rewrite combine_length, split_length, Nat.min_id in EL. cbn in EL. destruct bins; [congruence|discriminate].
  Qed.
End Losses.
