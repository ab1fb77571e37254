(** The population kernels in machine arithmetic: ranges of the mean parameters. *)

From Coq Require Import Reals ZArith String List Bool Arith Lra Lia.
From Flocq Require Import Core.
From Verif Require Import Model_Num Model_Kernels Model_Base Model_Utils Model_PopBase Model_PopData
  Model_PopParams Model_PopKernels Model_Float Spec_Pop Spec_Float Spec_PopFloat RealAux Proofs_Float
  Proofs_Float2 Proofs_Float3 Proofs_Float4 Proofs_Float5 Proofs_PopBase Proofs_PopAll
  Proofs_PopKernels Proofs_PopFloat2 Proofs_PopFloat6.
Import ListNotations.
Local Open Scope R_scope.
Local Open Scope string_scope.

(** Slack allowed on the parameters. *)
Definition tol : R := 1 / 10000.

Ltac bounds_tac := unfold dlt, tol, Rmin, Rmax in *; repeat (let D := fresh in destruct Rle_dec as [D|D]); lra.

Section Kernels.
  Variables emin prec : Z.
  Hypothesis Hprec : (20 <= prec)%Z.
  Hypothesis Hemin : (emin <= - prec - 100)%Z.
  Variable F : arith.
  Hypothesis HA : faithful emin prec F.
  Variable big : R.
  Hypothesis HB : bpow radix2 120 <= big.

  Local Notation X := (Num_xfl F big).
  Local Notation rd := (rnd F).
  Local Notation bx := (box F).
  Let HF := fa_ordered _ _ _ HA.

  Definition nprovides (c : component) (p : rec xr) : Prop :=
    NoDup (map fst p) /\ near_bounds F tol (c_bdict c) p.

  Lemma nfield c (p : rec xr) k lo hi : nprovides c p -> In (k, (lo, hi)) (c_bdict c) ->
    exists v, getattr p k = Ok v /\ bx v (lo - tol) (hi + tol).
  Proof.
    intros [Hnd H] Hin. destruct (H k lo hi Hin) as (r & Hr & M & B). exists (Fin r). split.
    - now apply in_getattr.
    - exists r. split; [reflexivity|]. split; [exact M | exact B].
  Qed.

  Local Tactic Notation "nf" hyp(H) constr(k) ident(v) ident(E) ident(B) :=
    destruct (nfield _ _ k _ _ H ltac:(in_list)) as (v & E & B); try rewrite E; cbn [bind].

  Let bconst := box_const emin prec Hprec Hemin F HA big HB.
  Let badd := box_add emin prec Hprec Hemin F HA big HB.
  Let bsub := box_sub emin prec Hprec Hemin F HA big HB.
  Let bmul := box_mul emin prec Hprec Hemin F HA big HB.
  Let bsig := box_sigmoid emin prec Hprec Hemin F HA big HB.

  Lemma bconst_int : forall z, (Z.abs z < 64)%Z -> bx (@nconst xr X (IZR z)) (IZR z) (IZR z).
  Proof.
    intros z Hz. apply (box_const_exact emin prec Hprec Hemin F HA big HB).
    - rewrite <- abs_IZR. apply IZR_le. lia.
    - apply (faithful_int emin prec Hprec Hemin F HA); lia.
  Qed.

  Ltac const_tac := apply bconst; apply Rabs_le; lra.

  (** ** Late index *)

  Lemma late_box sfx c p lgm : In (sfx, c) [("_alpha", LATE_INDEX_ALPHA); ("_beta", LATE_INDEX_BETA)] ->
    nprovides c p -> lgm <> NaN ->
    exists v, @pred_late_index_kern xr X sfx p lgm = Ok v /\ bx v (1 / 10) (21 / 100).
  Proof.
    assert (G : forall x0 ylo yhi, lgm <> NaN -> bx x0 (115 / 10 - tol) (14 + tol) ->
      bx ylo (1 / 100 - tol) (2 / 10 + tol) -> bx yhi (1 / 100 - tol) (2 / 10 + tol) ->
      bx (@clip xr X (@sigmoid xr X lgm x0 (@LATE_INDEX_K xr X) ylo yhi)
        (@nadd xr X (fst (late_index (@MAH_PBOUNDS xr X))) (@EPS_INDEX xr X))
        (@nsub xr X (snd (late_index (@MAH_PBOUNDS xr X))) (@EPS_INDEX xr X))) (1 / 10) (21 / 100)).
    { intros x0 ylo yhi Hl H0 H1 H2. unfold LATE_INDEX_K, EPS_INDEX, MAH_PBOUNDS. cbn [late_index fst snd].
      assert (S : bx (@sigmoid xr X lgm x0 (@nconst xr X 1) ylo yhi) (1 / 100 - tol - 3 * dlt) (2 / 10 + tol + 3 * dlt)).
      { eapply bsig; [exact Hl | exact H0 | apply (bconst_int 1); lia | lra | exact H1 | exact H2 | | | | | |]; unfold tol; lra. }
      assert (C1 : bx (@nadd xr X (@nconst xr X (1 / 10)) (@nconst xr X (1 / 1000))) (101 / 1000 - 3 * dlt) (101 / 1000 + 3 * dlt)).
      { eapply box_weaken; [apply badd; [const_tac | const_tac | |] | |]; unfold dlt; lra. }
      assert (C2 : bx (@nsub xr X (@nconst xr X 5) (@nconst xr X (1 / 1000))) 4 5).
      { eapply box_weaken; [apply bsub; [const_tac | const_tac | |] | |]; unfold dlt; lra. }
      eapply box_weaken; [apply (box_clip F big); [exact S | exact C1 | exact C2] | |]; bounds_tac. }
    intros [E|[E|[]]] H Hl; injection E as <- <-; unfold pred_late_index_kern; cbn [append].
  - nf H "late_index_x0_alpha" a Ea Ba.
    nf H "late_index_ylo_alpha" b Eb Bb.
    nf H "late_index_yhi_alpha" d Ed Bd.
    eexists. split; [reflexivity|]. now apply G.
  - nf H "late_index_x0_beta" a Ea Ba.
    nf H "late_index_ylo_beta" b Eb Bb.
    nf H "late_index_yhi_beta" d Ed Bd.
    eexists. split; [reflexivity|]. now apply G.
  Qed.

  (** ** Early index *)

  Lemma early_box sfx c p lgm t tp :
    In (sfx, c) [("_alpha", EARLY_INDEX_ALPHA); ("_beta", EARLY_INDEX_BETA)] ->
    nprovides c p -> lgm <> NaN -> t <> NaN -> tp <> NaN ->
    exists v, @pred_early_index_kern xr X sfx p lgm t tp = Ok v /\ bx v (49 / 100) (401 / 100).
  Proof.
    assert (G : forall a b d e f g h, lgm <> NaN -> t <> NaN -> tp <> NaN ->
      bx a (1 - tol) (7 + tol) -> bx b (1 - tol) (35 / 10 + tol) -> bx d (5 / 10 - tol) (3 + tol) ->
      bx e (4 - tol) (13 + tol) -> bx f (2 - tol) (4 + tol) -> bx g (15 / 10 - tol) (4 + tol) ->
      bx h (12 - tol) (14 + tol) ->
      bx (@clip xr X (@sigmoid xr X lgm h (@EARLY_INDEX_K xr X)
            (@get_early_index_ylo xr X a b d tp) (@get_early_index_yhi xr X e f g t))
        (@nadd xr X (fst (early_index (@MAH_PBOUNDS xr X))) (@EPS_INDEX xr X))
        (@nsub xr X (snd (early_index (@MAH_PBOUNDS xr X))) (@EPS_INDEX xr X))) (49 / 100) (401 / 100)).
    { intros a b d e f g h Hl Ht Htp H1 H2 H3 H4 H5 H6 H7.
      unfold EARLY_INDEX_K, EPS_INDEX, MAH_PBOUNDS, get_early_index_ylo, get_early_index_yhi, EARLY_INDEX_YLO_K, EARLY_INDEX_YHI_K.
      cbn [early_index fst snd].
      assert (S1 : bx (@sigmoid xr X tp a (@nconst xr X 1) b d) (5 / 10 - tol - 3 * dlt) (35 / 10 + tol + 3 * dlt)).
      { eapply bsig; [exact Htp | exact H1 | apply (bconst_int 1); lia | lra | exact H2 | exact H3 | | | | | |]; unfold tol; lra. }
      assert (S2 : bx (@sigmoid xr X t e (@nconst xr X (1 / 2)) f g) (15 / 10 - tol - 3 * dlt) (4 + tol + 3 * dlt)).
      { eapply bsig; [exact Ht | exact H4 | const_tac | unfold dlt; lra | exact H5 | exact H6 | | | | | |]; unfold tol; lra. }
      eassert (S3 : bx (@sigmoid xr X lgm h (@nconst xr X 1) _ _) (5 / 10 - tol - 6 * dlt) (4 + tol + 6 * dlt)).
      { eapply box_weaken; [eapply (bsig _ _ _ _ _ _ _ _ _ _ _ _ _ (5 / 10 - tol - 3 * dlt) (4 + tol + 3 * dlt));
          [exact Hl | exact H7 | apply (bconst_int 1); lia | lra | exact S1 | exact S2 | | | | | |] | |]; unfold tol, dlt; lra. }
      assert (C1 : bx (@nadd xr X (@nconst xr X (1 / 10)) (@nconst xr X (1 / 1000))) (101 / 1000 - 3 * dlt) (101 / 1000 + 3 * dlt)).
      { eapply box_weaken; [apply badd; [const_tac | const_tac | |] | |]; unfold dlt; lra. }
      assert (C2 : bx (@nsub xr X (@nconst xr X 10) (@nconst xr X (1 / 1000))) 9 10).
      { eapply box_weaken; [apply bsub; [const_tac | const_tac | |] | |]; unfold dlt; lra. }
      eapply box_weaken; [apply (box_clip F big); [exact S3 | exact C1 | exact C2] | |]; bounds_tac. }
    intros [E|[E|[]]] H Hl Ht Htp; injection E as <- <-; unfold pred_early_index_kern; cbn [append].
  - nf H "early_index_ylo_x0_alpha" x0 Ex0 Bx0.
    nf H "early_index_ylo_ylo_alpha" x1 Ex1 Bx1.
    nf H "early_index_ylo_yhi_alpha" x2 Ex2 Bx2.
    nf H "early_index_yhi_x0_alpha" x3 Ex3 Bx3.
    nf H "early_index_yhi_ylo_alpha" x4 Ex4 Bx4.
    nf H "early_index_yhi_yhi_alpha" x5 Ex5 Bx5.
    nf H "early_index_lgm_x0_alpha" x6 Ex6 Bx6.
    eexists. split; [reflexivity|]. now apply G.
  - nf H "early_index_ylo_x0_beta" x0 Ex0 Bx0.
    nf H "early_index_ylo_ylo_beta" x1 Ex1 Bx1.
    nf H "early_index_ylo_yhi_beta" x2 Ex2 Bx2.
    nf H "early_index_yhi_x0_beta" x3 Ex3 Bx3.
    nf H "early_index_yhi_ylo_beta" x4 Ex4 Bx4.
    nf H "early_index_yhi_yhi_beta" x5 Ex5 Bx5.
    nf H "early_index_lgm_x0_beta" x6 Ex6 Bx6.
    eexists. split; [reflexivity|]. now apply G.
  Qed.

  (** ** logtc *)

  Lemma logtc_box sfx c p lgm t tp l1 l2 t1 t2 p1 p2 :
    In (sfx, c) [("_early", LOGTC_EARLY); ("_late", LOGTC_LATE)] -> nprovides c p ->
    bx lgm l1 l2 -> 6 <= l1 -> l2 <= 17 -> bx t t1 t2 -> 0 <= t1 -> t2 <= 15 -> bx tp p1 p2 -> 0 <= p1 -> p2 <= 20 ->
    exists v, @pred_logtc_kern xr X sfx p lgm t tp = Ok v /\ bx v (-1) 1.
  Proof.
    intros Hin H Hl L1 L2 Ht T1 T2 Hp P1 P2.
    assert (G : forall a b d e f g,
      bx a (2 / 10 - tol) (9 / 10 + tol) -> bx b (0 - tol) (5 / 100 + tol) -> bx d (2 / 100 - tol) (15 / 100 + tol) ->
      bx e (-25 / 100 - tol) (0 + tol) -> bx f (11 - tol) (13 + tol) -> bx g (2 / 100 - tol) (15 / 100 + tol) ->
      bx (@clip xr X (@nadd xr X (@sig_slope xr X tp (@C0_SS_XTP xr X) (@nadd xr X a (@nmul xr X b t)) f (@C0_SS_K xr X) d e)
            (@nmul xr X g (@nsub xr X lgm (@TAUC_LGMP xr X))))
        (@nadd xr X (fst (logtc (@MAH_PBOUNDS xr X))) (@EPS_INDEX xr X))
        (@nsub xr X (snd (logtc (@MAH_PBOUNDS xr X))) (@EPS_INDEX xr X))) (-1) 1).
    { intros a b d e f g H1 H2 H3 H4 H5 H6.
      unfold sig_slope, EPS_INDEX, MAH_PBOUNDS, C0_SS_XTP, C0_SS_K, TAUC_LGMP. cbn [logtc fst snd].
      pose proof (box_weaken F _ _ _ _ _ Hl L1 L2) as Hl'. pose proof (box_weaken F _ _ _ _ _ Ht T1 T2) as Ht'.
      pose proof (box_weaken F _ _ _ _ _ Hp P1 P2) as Hp'.
      assert (Y : bx (@nadd xr X a (@nmul xr X b t)) (-1) 2).
      { eapply box_weaken; [apply badd; [exact H1 | apply (bmul _ _ _ _ _ _ (-1 / 10) 1 H2 Ht'); [|lra|lra] | |] | |];
          unfold tol, dlt; try lra. intros r s Br Bs. unfold tol in Br. nra. }
      assert (S1 : bx (@sigmoid xr X tp f (@nconst xr X (1 / 2)) d e) (-25 / 100 - tol - 3 * dlt) (15 / 100 + tol + 3 * dlt)).
      { eapply bsig; [exact (box_not_nan F _ _ _ Hp) | exact H5 | const_tac | unfold dlt; lra | exact H3 | exact H4 | | | | | |]; unfold tol; lra. }
      assert (D1 : bx (@nsub xr X tp (@nconst xr X 10)) (-11) 11).
      { eapply box_weaken; [apply bsub; [exact Hp' | apply (bconst_int 10); lia | |] | |]; unfold dlt; lra. }
      assert (D2 : bx (@nsub xr X lgm (@nconst xr X 12)) (-7) 7).
      { eapply box_weaken; [apply bsub; [exact Hl' | apply (bconst_int 12); lia | |] | |]; unfold dlt; lra. }
      assert (M1 : bx (@nmul xr X (@sigmoid xr X tp f (@nconst xr X (1 / 2)) d e) (@nsub xr X tp (@nconst xr X 10))) (-5) 5).
      { eapply box_weaken; [apply (bmul _ _ _ _ _ _ (-4) 4 S1 D1); [|lra|lra] | |]; unfold dlt; try lra.
        intros r s Br Bs. unfold tol, dlt in Br. assert (-3 / 10 <= r <= 3 / 10) by lra. nra. }
      assert (M2 : bx (@nmul xr X g (@nsub xr X lgm (@nconst xr X 12))) (-3) 3).
      { eapply box_weaken; [apply (bmul _ _ _ _ _ _ (-2) 2 H6 D2); [|lra|lra] | |]; unfold dlt; try lra.
        intros r s Br Bs. unfold tol in Br. assert (0 <= r <= 2 / 10) by lra. nra. }
      assert (S2 : bx (@nadd xr X (@nadd xr X a (@nmul xr X b t))
        (@nmul xr X (@sigmoid xr X tp f (@nconst xr X (1 / 2)) d e) (@nsub xr X tp (@nconst xr X 10)))) (-7) 8).
      { eapply box_weaken; [apply badd; [exact Y | exact M1 | |] | |]; unfold dlt; lra. }
      eassert (S3 : bx (@nadd xr X _ _) (-11) 12).
      { eapply box_weaken; [apply badd; [exact S2 | exact M2 | |] | |]; unfold dlt; lra. }
      assert (C1 : bx (@nadd xr X (@nconst xr X (-1)) (@nconst xr X (1 / 1000))) (-1) 0).
      { eapply box_weaken; [apply badd; [apply (bconst_int (-1)); lia | const_tac | |] | |]; unfold dlt; lra. }
      assert (C2 : bx (@nsub xr X (@nconst xr X 1) (@nconst xr X (1 / 1000))) 0 1).
      { eapply box_weaken; [apply bsub; [apply (bconst_int 1); lia | const_tac | |] | |]; unfold dlt; lra. }
      eapply box_weaken; [apply (box_clip F big); [exact S3 | exact C1 | exact C2] | |]; bounds_tac. }
    revert H. destruct Hin as [E|[E|[]]]; injection E as <- <-; intros H; unfold pred_logtc_kern, get_c0; cbn [append].
  - nf H "logtc_lgm_c0_tp_ytp_tobs_c0_early" x0 Ex0 Bx0.
    nf H "logtc_lgm_c0_tp_ytp_tobs_c1_early" x1 Ex1 Bx1.
    nf H "logtc_lgm_c0_tp_ylo_early" x2 Ex2 Bx2.
    nf H "logtc_lgm_c0_tp_yhi_early" x3 Ex3 Bx3.
    nf H "logtc_c0_ss_x0_early" x4 Ex4 Bx4.
    nf H "logtc_lgm_c1_early" x5 Ex5 Bx5.
    eexists. split; [reflexivity|]. now apply G.
  - nf H "logtc_lgm_c0_tp_ytp_tobs_c0_late" x0 Ex0 Bx0.
    nf H "logtc_lgm_c0_tp_ytp_tobs_c1_late" x1 Ex1 Bx1.
    nf H "logtc_lgm_c0_tp_ylo_late" x2 Ex2 Bx2.
    nf H "logtc_lgm_c0_tp_yhi_late" x3 Ex3 Bx3.
    nf H "logtc_c0_ss_x0_late" x4 Ex4 Bx4.
    nf H "logtc_lgm_c1_late" x5 Ex5 Bx5.
    eexists. split; [reflexivity|]. now apply G.
  Qed.

  (** ** logm0 *)

  Lemma c0_box sfx c0 c1 p t tp t1 t2 p1 p2 : In (sfx, c0, c1) m0_populations -> nprovides c0 p ->
    bx t t1 t2 -> 0 <= t1 -> t2 <= 15 -> bx tp p1 p2 -> 0 <= p1 -> p2 <= 20 ->
    exists v, @pred_c0_kern xr X sfx p t tp = Ok v /\ bx v (-1 / 10) (268 / 100).
  Proof.
    intros Hin H Ht T1 T2 Hp P1 P2.
    assert (G : forall y x l a b, bx y (1 / 100 - tol) (4 / 10 + tol) -> bx x (15 / 10 - tol) (6 + tol) ->
      bx l (-15 / 100 - tol) (-5 / 100 + tol) -> bx a (5 / 10 - tol) (9 / 10 + tol) ->
      bx b (-1 / 10 - tol) (-1 / 100 + tol) ->
      bx (@clip_min xr X (@sig_slope xr X t (@LGM0_C0_XTP xr X) y x (@LGM0_GLOBAL_K xr X) l (@nconst xr X 0))
        (@nadd xr X a (@nmul xr X b tp))) (-1 / 10) (268 / 100)).
    { intros y x l a b H1 H2 H3 H4 H5. unfold clip_min, sig_slope, LGM0_C0_XTP, LGM0_GLOBAL_K.
      pose proof (box_weaken F _ _ _ _ _ Ht T1 T2) as Ht'. pose proof (box_weaken F _ _ _ _ _ Hp P1 P2) as Hp'.
      assert (S1 : bx (@sigmoid xr X t x (@nconst xr X (1 / 4)) l (@nconst xr X 0)) (-151 / 1000) (1 / 1000)).
      { eapply box_weaken; [eapply (bsig _ _ _ _ _ _ _ _ _ _ _ _ _ (-15 / 100 - tol) 0);
          [exact (box_not_nan F _ _ _ Ht) | exact H2 | const_tac | unfold dlt; lra | exact H3 | apply (bconst_int 0); lia | | | | | |] | |];
          unfold tol, dlt; lra. }
      assert (D1 : bx (@nsub xr X t (@nconst xr X 15)) (-15 - dlt) dlt).
      { eapply box_weaken; [apply bsub; [exact Ht' | apply (bconst_int 15); lia | |] | |]; unfold dlt; lra. }
      assert (M1 : bx (@nmul xr X (@sigmoid xr X t x (@nconst xr X (1 / 4)) l (@nconst xr X 0)) (@nsub xr X t (@nconst xr X 15)))
        (-2 / 100) (2267 / 1000)).
      { eapply box_weaken; [apply (bmul _ _ _ _ _ _ (-16 / 1000) (2266 / 1000) S1 D1); [|lra|lra] | |]; unfold dlt; try lra.
        intros r s Br Bs. unfold dlt in Bs. split; nra. }
      eassert (S2 : bx (@nadd xr X y _) (-1 / 10) (2668 / 1000)).
      { eapply box_weaken; [apply badd; [exact H1 | exact M1 | |] | |]; unfold tol, dlt; lra. }
      assert (M2 : bx (@nmul xr X b tp) (-3) (1 / 100)).
      { eapply box_weaken; [apply (bmul _ _ _ _ _ _ (-25 / 10) (1 / 1000) H5 Hp'); [|lra|lra] | |]; unfold dlt; try lra.
        intros r s Br Bs. unfold tol in Br. split; nra. }
      assert (S3 : bx (@nadd xr X a (@nmul xr X b tp)) (-3) 1).
      { eapply box_weaken; [apply badd; [exact H4 | exact M2 | |] | |]; unfold tol, dlt; lra. }
      eapply box_weaken; [apply (box_max F big); [exact S2 | exact S3] | |]; bounds_tac. }
    revert H. destruct Hin as [E|[E|[E|[E|[]]]]]; injection E as <- <- <-; intros H; unfold pred_c0_kern; cbn [append].
  - nf H "lgm0pop_c0_ytp_early" x0 Ex0 Bx0.
    nf H "lgm0pop_c0_t_obs_x0_early" x1 Ex1 Bx1.
    nf H "lgm0pop_c0_ylo_early" x2 Ex2 Bx2.
    nf H "lgm0pop_c0_clip_c0_early" x3 Ex3 Bx3.
    nf H "lgm0pop_c0_clip_c1_early" x4 Ex4 Bx4.
    eexists. split; [reflexivity|]. now apply G.
  - nf H "lgm0pop_c0_ytp_late" x0 Ex0 Bx0.
    nf H "lgm0pop_c0_t_obs_x0_late" x1 Ex1 Bx1.
    nf H "lgm0pop_c0_ylo_late" x2 Ex2 Bx2.
    nf H "lgm0pop_c0_clip_c0_late" x3 Ex3 Bx3.
    nf H "lgm0pop_c0_clip_c1_late" x4 Ex4 Bx4.
    eexists. split; [reflexivity|]. now apply G.
  - nf H "lgm0pop_c0_ytp_early_sats" x0 Ex0 Bx0.
    nf H "lgm0pop_c0_t_obs_x0_early_sats" x1 Ex1 Bx1.
    nf H "lgm0pop_c0_ylo_early_sats" x2 Ex2 Bx2.
    nf H "lgm0pop_c0_clip_c0_early_sats" x3 Ex3 Bx3.
    nf H "lgm0pop_c0_clip_c1_early_sats" x4 Ex4 Bx4.
    eexists. split; [reflexivity|]. now apply G.
  - nf H "lgm0pop_c0_ytp_late_sats" x0 Ex0 Bx0.
    nf H "lgm0pop_c0_t_obs_x0_late_sats" x1 Ex1 Bx1.
    nf H "lgm0pop_c0_ylo_late_sats" x2 Ex2 Bx2.
    nf H "lgm0pop_c0_clip_c0_late_sats" x3 Ex3 Bx3.
    nf H "lgm0pop_c0_clip_c1_late_sats" x4 Ex4 Bx4.
    eexists. split; [reflexivity|]. now apply G.
  Qed.

  Lemma c1_box sfx c0 c1 p t tp t1 t2 : In (sfx, c0, c1) m0_populations -> nprovides c1 p ->
    bx t t1 t2 -> 0 <= t1 -> t2 <= 15 -> tp <> NaN ->
    exists v, @pred_c1_kern xr X sfx p t tp = Ok v /\ bx v 0 (62 / 100).
  Proof.
    intros Hin H Ht T1 T2 Hp.
    assert (G : forall y x l a b d, bx y (1 / 1000 - tol) (1 / 10 + tol) -> bx x (3 - tol) (10 + tol) ->
      bx l (-5 / 100 - tol) (-1 / 1000 + tol) -> bx a (4 - tol) (11 + tol) ->
      bx b (2 / 100 - tol) (15 / 100 + tol) -> bx d (1 / 1000 - tol) (5 / 100 + tol) ->
      bx (@clip_min xr X (@sig_slope xr X t (@LGM0_C1_XTP xr X) y x (@LGM0_GLOBAL_K xr X) l (@nconst xr X 0))
        (@sigmoid xr X tp a (@LGM0_CLIP_TP_K xr X) b d)) 0 (62 / 100)).
    { intros y x l a b d H1 H2 H3 H4 H5 H6. unfold clip_min, sig_slope, LGM0_C1_XTP, LGM0_GLOBAL_K, LGM0_CLIP_TP_K.
      pose proof (box_weaken F _ _ _ _ _ Ht T1 T2) as Ht'.
      assert (S1 : bx (@sigmoid xr X t x (@nconst xr X (1 / 4)) l (@nconst xr X 0)) (-51 / 1000) (1 / 1000)).
      { eapply box_weaken; [eapply (bsig _ _ _ _ _ _ _ _ _ _ _ _ _ (-5 / 100 - tol) 0);
          [exact (box_not_nan F _ _ _ Ht) | exact H2 | const_tac | unfold dlt; lra | exact H3 | apply (bconst_int 0); lia | | | | | |] | |];
          unfold tol, dlt; lra. }
      assert (D1 : bx (@nsub xr X t (@nconst xr X 10)) (-10 - dlt) (5 + dlt)).
      { eapply box_weaken; [apply bsub; [exact Ht' | apply (bconst_int 10); lia | |] | |]; unfold dlt; lra. }
      assert (M1 : bx (@nmul xr X (@sigmoid xr X t x (@nconst xr X (1 / 4)) l (@nconst xr X 0)) (@nsub xr X t (@nconst xr X 10)))
        (-3 / 10) (512 / 1000)).
      { eapply box_weaken; [apply (bmul _ _ _ _ _ _ (-28 / 100) (511 / 1000) S1 D1); [|lra|lra] | |]; unfold dlt; try lra.
        intros r s Br Bs. unfold dlt in Bs. split; nra. }
      eassert (S2 : bx (@nadd xr X y _) (-4 / 10) (613 / 1000)).
      { eapply box_weaken; [apply badd; [exact H1 | exact M1 | |] | |]; unfold tol, dlt; lra. }
      assert (S3 : bx (@sigmoid xr X tp a (@nconst xr X 1) b d) 0 (2 / 10)).
      { eapply box_weaken; [eapply (bsig _ _ _ _ _ _ _ _ _ _ _ _ _ (1 / 1000 - tol) (15 / 100 + tol));
          [exact Hp | exact H4 | apply (bconst_int 1); lia | lra | exact H5 | exact H6 | | | | | |] | |];
          unfold tol, dlt; lra. }
      eapply box_weaken; [apply (box_max F big); [exact S2 | exact S3] | |]; bounds_tac. }
    revert H. destruct Hin as [E|[E|[E|[E|[]]]]]; injection E as <- <- <-; intros H; unfold pred_c1_kern; cbn [append].
  - nf H "lgm0pop_c1_ytp_early" x0 Ex0 Bx0.
    nf H "lgm0pop_c1_t_obs_x0_early" x1 Ex1 Bx1.
    nf H "lgm0pop_c1_ylo_early" x2 Ex2 Bx2.
    nf H "lgm0pop_c1_clip_x0_early" x3 Ex3 Bx3.
    nf H "lgm0pop_c1_clip_ylo_early" x4 Ex4 Bx4.
    nf H "lgm0pop_c1_clip_yhi_early" x5 Ex5 Bx5.
    eexists. split; [reflexivity|]. now apply G.
  - nf H "lgm0pop_c1_ytp_late" x0 Ex0 Bx0.
    nf H "lgm0pop_c1_t_obs_x0_late" x1 Ex1 Bx1.
    nf H "lgm0pop_c1_ylo_late" x2 Ex2 Bx2.
    nf H "lgm0pop_c1_clip_x0_late" x3 Ex3 Bx3.
    nf H "lgm0pop_c1_clip_ylo_late" x4 Ex4 Bx4.
    nf H "lgm0pop_c1_clip_yhi_late" x5 Ex5 Bx5.
    eexists. split; [reflexivity|]. now apply G.
  - nf H "lgm0pop_c1_ytp_early_sats" x0 Ex0 Bx0.
    nf H "lgm0pop_c1_t_obs_x0_early_sats" x1 Ex1 Bx1.
    nf H "lgm0pop_c1_ylo_early_sats" x2 Ex2 Bx2.
    nf H "lgm0pop_c1_clip_x0_early_sats" x3 Ex3 Bx3.
    nf H "lgm0pop_c1_clip_ylo_early_sats" x4 Ex4 Bx4.
    nf H "lgm0pop_c1_clip_yhi_early_sats" x5 Ex5 Bx5.
    eexists. split; [reflexivity|]. now apply G.
  - nf H "lgm0pop_c1_ytp_late_sats" x0 Ex0 Bx0.
    nf H "lgm0pop_c1_t_obs_x0_late_sats" x1 Ex1 Bx1.
    nf H "lgm0pop_c1_ylo_late_sats" x2 Ex2 Bx2.
    nf H "lgm0pop_c1_clip_x0_late_sats" x3 Ex3 Bx3.
    nf H "lgm0pop_c1_clip_ylo_late_sats" x4 Ex4 Bx4.
    nf H "lgm0pop_c1_clip_yhi_late_sats" x5 Ex5 Bx5.
    eexists. split; [reflexivity|]. now apply G.
  Qed.

  Lemma logm0_box sfx c0 c1 p lgm t tp t1 t2 p1 p2 : In (sfx, c0, c1) m0_populations ->
    nprovides c0 p -> nprovides c1 p -> machine F lgm -> 6 <= lgm <= 134 / 10 ->
    bx t t1 t2 -> 0 <= t1 -> t2 <= 15 -> bx tp p1 p2 -> 0 <= p1 -> p2 <= 20 ->
    exists v, @pred_logm0_kern xr X sfx p (Fin lgm) t tp = Ok v /\ bx v 1 17.
  Proof.
    intros Hin P0 P1 Ml Hl Ht T1 T2 Hp Q1 Q2. unfold pred_logm0_kern, TP_LGMP.
    destruct (c0_box _ _ _ p t tp _ _ _ _ Hin P0 Ht T1 T2 Hp Q1 Q2) as (v0 & -> & B0). cbn [bind].
    destruct (c1_box _ _ _ p t tp _ _ Hin P1 Ht T1 T2 (box_not_nan F _ _ _ Hp)) as (v1 & -> & B1). cbn [bind].
    eexists. split; [reflexivity|].
    assert (Hb : bx (Fin lgm) 6 (134 / 10)) by (exists lgm; split; [reflexivity | split; [exact Ml | exact Hl]]).
    assert (D : bx (@nsub xr X (Fin lgm) (@nconst xr X 12)) (-6 - dlt) (14 / 10 + dlt)).
    { eapply box_weaken; [apply bsub; [exact Hb | apply (bconst_int 12); lia | |] | |]; unfold dlt; lra. }
    assert (M : bx (@nmul xr X v1 (@nsub xr X (Fin lgm) (@nconst xr X 12))) (-4) (87 / 100)).
    { eapply box_weaken; [apply (bmul _ _ _ _ _ _ (-38 / 10) (869 / 1000) B1 D); [|lra|lra] | |]; unfold dlt; try lra.
      intros r s Br Bs. unfold dlt in Bs. split; nra. }
    assert (S2 : bx (@nadd xr X v0 (@nmul xr X v1 (@nsub xr X (Fin lgm) (@nconst xr X 12)))) (-42 / 10) (3551 / 1000)).
    { eapply box_weaken; [apply badd; [exact B0 | exact M | |] | |]; unfold dlt; lra. }
    eapply box_weaken; [apply badd; [exact Hb | exact S2 | |] | |]; unfold dlt; lra.
  Qed.

  (** ** Fraction of early formers *)

  Lemma frac_box p lgm t : nprovides FEC p -> lgm <> NaN -> t <> NaN ->
    exists f, @frac_early_cens_kern xr X p lgm t = Ok f /\ bx f (24 / 100) (76 / 100).
  Proof.
    intros H Hl Ht. unfold frac_early_cens_kern.
    nf H "fec_t_obs_x0" a Ea Ba. nf H "fec_lgm_ylo_early" b Eb Bb. nf H "fec_lgm_ylo_late" c Ec Bc.
    nf H "fec_lgm_yhi_early" d Ed Bd. nf H "fec_lgm_yhi_late" e Ee Be. nf H "fec_lgm_x0" z Ez Bz.
    eexists. split; [reflexivity|]. unfold FEC_T_K, FEC_LGM_K.
    assert (S : forall y w, bx y (25 / 100 - tol) (75 / 100 + tol) -> bx w (25 / 100 - tol) (75 / 100 + tol) ->
      bx (@sigmoid xr X t a (@nconst xr X 1) y w) (25 / 100 - tol - 3 * dlt) (75 / 100 + tol + 3 * dlt)).
    { intros y w By Bw. eapply bsig; [exact Ht | exact Ba | apply (bconst_int 1); lia | lra | exact By | exact Bw | | | | | |]; unfold tol; lra. }
    eapply box_weaken; [eapply (bsig _ _ _ _ _ _ _ _ _ _ _ _ _ (25 / 100 - tol - 3 * dlt) (75 / 100 + tol + 3 * dlt));
      [exact Hl | exact Bz | apply (bconst_int 4); lia | lra | apply (S _ _ Bb Bc) | apply (S _ _ Bd Be) | | | | | |] | |];
      unfold tol, dlt; lra.
  Qed.
End Kernels.
