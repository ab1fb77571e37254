(** Dual-number differentiation of the population kernels. *)

From Coq Require Import Reals String List Bool Arith ZArith Lia Lra.
From Coquelicot Require Import Coquelicot.
From Verif Require Import Model_Num RealAux Model_Base Model_Kernels Model_Utils Model_PopBase Model_PopData
  Model_PopParams Model_PopKernels Model_Grad Spec_Utils Spec_Grad Proofs_Kernels Proofs_AD Proofs_PopInterp
  Proofs_PopKernels Proofs_PopCov Proofs_PopTpeak Proofs_PopMC Proofs_PopAD.
Import ListNotations.
Local Open Scope R_scope.
Local Open Scope string_scope.

(** Derivative rules, chosen by the shape of the dual. *)
Ltac tk :=
  repeat first
  [ eassumption
  | match goal with
    | |- tracks _ _ (nconst _) => apply t_const
    | |- tracks _ _ (nadd _ _) => apply (t_add _ (fun y => _) (fun y => _))
    | |- tracks _ _ (nsub _ _) => apply (t_sub _ (fun y => _) (fun y => _))
    | |- tracks _ _ (nmul _ _) => apply (t_mul _ (fun y => _) (fun y => _))
    | |- tracks _ _ (sigmoid _ _ _ _ _) =>
        apply (t_sigmoid _ (fun y => _) (fun y => _) (fun y => _) (fun y => _) (fun y => _))
    | |- tracks _ _ (sig_slope _ _ _ _ _ _ _) =>
        apply (t_sig_slope _ (fun y => _) (fun y => _) (fun y => _) (fun y => _) (fun y => _) (fun y => _) (fun y => _))
    end ].

(** Read a field. *)
Tactic Notation "rget" hyp(Hx) hyp(HP) ident(f) ident(d) ident(Hf) ident(Vf) :=
  let a := fresh "a" in let Ha := fresh "Ha" in let Hx' := fresh "Hx" in
  eapply rel_bind; [exact Hx|intros a Ha; exact (rel_get _ _ _ _ _ Ha HP)|];
  intros f d _ [Hf Vf] Hx'; clear Hx; rename Hx' into Hx; cbn beta in Hx |- *; cbv zeta in Hx |- *.

(** The same for a part of a larger namedtuple [p]. *)
Lemma rel_read x P D k v p : getattr (P x) k = Ok v -> reads (P x) p -> rt x P D ->
  rel (fun f d => tracks f x d /\ f x = val p k) (fun y => getattr (P y) k) (getattr D k).
Proof.
  intros Hk HR HP. apply (rel_imp (fun f d => tracks f x d /\ f x = val (P x) k)); [|exact (rel_get x P D k v Hk HP)].
  intros f d [H1 H2]. split; [exact H1|]. rewrite H2. unfold val. now rewrite Hk, (HR _ _ Hk).
Qed.

Tactic Notation "rgetp" hyp(Hx) hyp(HR) hyp(HP) ident(f) ident(d) ident(Hf) ident(Vf) :=
  let a := fresh "a" in let Ha := fresh "Ha" in let Hx' := fresh "Hx" in
  eapply rel_bind; [exact Hx|intros a Ha; exact (rel_read _ _ _ _ _ _ Ha HR HP)|];
  intros f d _ [Hf Vf] Hx'; clear Hx; rename Hx' into Hx; cbn beta in Hx |- *; cbv zeta in Hx |- *.

Section Kernels.
  Context (x : R) (P : R -> rec R) (D : rec (Dual R)) (HP : rt x P D) (p : rec R) (HR : reads (P x) p).
  Context (fm ft ftp : R -> R) (dm dt dtp : Dual R).
  Context (Hm : tracks fm x dm) (Ht : tracks ft x dt) (Htp : tracks ftp x dtp).

  Notation TR := (fun f d => tracks f x d).

  Lemma clip_inside (r lo hi : R) : lo < clip r lo hi < hi -> r <> lo /\ r <> hi.
  Proof.
    rewrite clip_R. unfold Rmin, Rmax. repeat destruct Rle_dec; lra.
  Qed.

  Lemma rel_early s v : pred_early_index_kern s (P x) (fm x) (ft x) (ftp x) = Ok v -> 5/10 < v < 4 ->
    rel TR (fun y => pred_early_index_kern s (P y) (fm y) (ft y) (ftp y)) (pred_early_index_kern s D dm dt dtp).
  Proof.
    intros Hx Hv. unfold pred_early_index_kern in *.
    rgetp Hx HR HP f1 d1 H1 V1. rgetp Hx HR HP f2 d2 H2 V2. rgetp Hx HR HP f3 d3 H3 V3. rgetp Hx HR HP f4 d4 H4 V4.
    rgetp Hx HR HP f5 d5 H5 V5. rgetp Hx HR HP f6 d6 H6 V6. rgetp Hx HR HP f7 d7 H7 V7.
    cbn [MAH_PBOUNDS early_index] in *. injection Hx as Hx.
    assert (HN : forall r lo hi : R, lo <= 5/10 -> 4 <= hi -> clip r lo hi = v -> r <> lo /\ r <> hi).
    { intros r lo hi L1 L2 E. apply clip_inside. rewrite E. lra. }
    apply HN in Hx; [|unfold EPS_INDEX; cbn; lra|unfold EPS_INDEX; cbn; lra].
    destruct Hx as [N1 N2].
    unfold get_early_index_ylo, get_early_index_yhi, EARLY_INDEX_K, EARLY_INDEX_YHI_K, EARLY_INDEX_YLO_K, EPS_INDEX in *.
    apply (rel_ok TR (fun y => _)). apply (t_clip x (fun y => _) (fun y => _) (fun y => _)); tk.
    cbn. lra.
  Qed.

  Lemma rel_late s v : pred_late_index_kern s (P x) (fm x) = Ok v ->
    raw_late s p (fm x) <> 101/1000 -> raw_late s p (fm x) <> 4999/1000 ->
    rel TR (fun y => pred_late_index_kern s (P y) (fm y)) (pred_late_index_kern s D dm).
  Proof.
    intros Hx N1 N2. unfold pred_late_index_kern in *.
    rgetp Hx HR HP f1 d1 H1 V1. rgetp Hx HR HP f2 d2 H2 V2. rgetp Hx HR HP f3 d3 H3 V3. clear Hx.
    cbn [MAH_PBOUNDS late_index]. unfold LATE_INDEX_K, EPS_INDEX.
    apply (rel_ok TR (fun y => _)). apply (t_clip x (fun y => _) (fun y => _) (fun y => _)); tk.
    - cbn. lra.
    - rewrite V1, V2, V3. replace (nadd #(1/10) #(1/1000))%num with (101/1000) by (cbn; lra). exact N1.
    - rewrite V1, V2, V3. replace (nsub #5 #(1/1000))%num with (4999/1000) by (cbn; lra). exact N2.
  Qed.

  Lemma rel_logtc s v : pred_logtc_kern s (P x) (fm x) (ft x) (ftp x) = Ok v ->
    raw_logtc s p (fm x) (ft x) (ftp x) <> -(999/1000) ->
    raw_logtc s p (fm x) (ft x) (ftp x) <> 999/1000 ->
    rel TR (fun y => pred_logtc_kern s (P y) (fm y) (ft y) (ftp y)) (pred_logtc_kern s D dm dt dtp).
  Proof.
    intros Hx N1 N2. unfold pred_logtc_kern in *.
    eapply rel_bind with (T := fun f d => tracks f x d /\ f x =
      sig_slope (ftp x) 10 (val p ("logtc_lgm_c0_tp_ytp_tobs_c0" ++ s) + val p ("logtc_lgm_c0_tp_ytp_tobs_c1" ++ s) * ft x)
        (val p ("logtc_c0_ss_x0" ++ s)) (1/2) (val p ("logtc_lgm_c0_tp_ylo" ++ s)) (val p ("logtc_lgm_c0_tp_yhi" ++ s)));
      [exact Hx| |].
    { intros a Ha. clear Hx. unfold get_c0 in *.
      rgetp Ha HR HP f1 d1 H1 V1. rgetp Ha HR HP f2 d2 H2 V2. rgetp Ha HR HP f3 d3 H3 V3. rgetp Ha HR HP f4 d4 H4 V4.
      rgetp Ha HR HP f5 d5 H5 V5. clear Ha.
      unfold C0_SS_XTP, C0_SS_K. apply (rel_ok _ (fun y => _)). split; [tk|]. cbv beta. now rewrite V1, V2, V3, V4, V5. }
    intros f0 d0 _ [H0 V0] Hx'. clear Hx. rename Hx' into Hx. cbn beta in Hx |- *.
    rgetp Hx HR HP f1 d1 H1 V1. clear Hx.
    cbn [MAH_PBOUNDS logtc]. unfold EPS_INDEX, TAUC_LGMP.
    apply (rel_ok TR (fun y => _)). apply (t_clip x (fun y => _) (fun y => _) (fun y => _)); tk.
    - cbn. lra.
    - rewrite V0, V1. replace (nadd #(-1) #(1/1000))%num with (-(999/1000)) by (cbn; lra). exact N1.
    - rewrite V0, V1. replace (nsub #1 #(1/1000))%num with (999/1000) by (cbn; lra). exact N2.
  Qed.

  Lemma rel_logm0 s v : pred_logm0_kern s (P x) (fm x) (ft x) (ftp x) = Ok v ->
    raw_c0 s p (ft x) <> floor_c0 s p (ftp x) ->
    raw_c1 s p (ft x) <> floor_c1 s p (ftp x) ->
    rel TR (fun y => pred_logm0_kern s (P y) (fm y) (ft y) (ftp y)) (pred_logm0_kern s D dm dt dtp).
  Proof.
    intros Hx N1 N2. unfold pred_logm0_kern in *.
    eapply rel_bind with (T := TR); [exact Hx| |].
    { intros a Ha. clear Hx. unfold pred_c0_kern in *.
      rgetp Ha HR HP f1 d1 H1 V1. rgetp Ha HR HP f2 d2 H2 V2. rgetp Ha HR HP f3 d3 H3 V3. rgetp Ha HR HP f4 d4 H4 V4.
      rgetp Ha HR HP f5 d5 H5 V5. clear Ha. unfold LGM0_C0_XTP, LGM0_GLOBAL_K.
      apply (rel_ok TR (fun y => _)). apply (t_clip_min x (fun y => _) (fun y => _)); tk.
      rewrite V1, V2, V3, V4, V5. exact N1. }
    intros f0 d0 _ H0 Hx'. clear Hx. rename Hx' into Hx. cbn beta in Hx |- *.
    eapply rel_bind with (T := TR); [exact Hx| |].
    { intros a Ha. clear Hx. unfold pred_c1_kern in *.
      rgetp Ha HR HP f1 d1 H1 V1. rgetp Ha HR HP f2 d2 H2 V2. rgetp Ha HR HP f3 d3 H3 V3. rgetp Ha HR HP f4 d4 H4 V4.
      rgetp Ha HR HP f5 d5 H5 V5. rgetp Ha HR HP f6 d6 H6 V6. clear Ha. unfold LGM0_C1_XTP, LGM0_GLOBAL_K, LGM0_CLIP_TP_K.
      apply (rel_ok TR (fun y => _)). apply (t_clip_min x (fun y => _) (fun y => _)); tk.
      rewrite V1, V2, V3, V4, V5, V6. exact N2. }
    intros f1 d1 _ H1 _. cbn beta. cbv zeta. unfold TP_LGMP.
    apply (rel_ok TR (fun y => _)). tk.
  Qed.

  Lemma rel_frac v : frac_early_cens_kern (P x) (fm x) (ft x) = Ok v ->
    rel TR (fun y => frac_early_cens_kern (P y) (fm y) (ft y)) (frac_early_cens_kern D dm dt).
  Proof.
    intros Hx. unfold frac_early_cens_kern in *.
    rgetp Hx HR HP f1 d1 H1 V1. rgetp Hx HR HP f2 d2 H2 V2. rgetp Hx HR HP f3 d3 H3 V3. rgetp Hx HR HP f4 d4 H4 V4.
    rgetp Hx HR HP f5 d5 H5 V5. rgetp Hx HR HP f6 d6 H6 V6. clear Hx. unfold FEC_LGM_K, FEC_T_K.
    apply (rel_ok TR (fun y => _)). tk.
  Qed.
End Kernels.
