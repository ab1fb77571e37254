(** The kernels of the population components over the reals. *)

From Coq Require Import Reals String List Bool Arith ZArith Lia Lra Sorting.Sorted.
From Verif Require Import Model_Num RealAux Model_Base Model_Kernels Model_Utils Model_PopBase Model_PopData
  Model_PopParams Model_PopKernels Proofs_Kernels Spec_Utils Spec_Pop Proofs_PopBase Proofs_PopParams
  Proofs_PopAll Proofs_PopInterp.
Import ListNotations.
Local Open Scope R_scope.
Local Open Scope string_scope.

(** ** Reading fields *)

Lemma provides_field c (p : rec R) k lo hi : provides c p -> In (k, (lo, hi)) (c_bdict c) ->
  exists v, getattr p k = Ok v /\ has p k v /\ lo < v < hi.
Proof.
  intros [Hnd H] Hin. destruct (H k lo hi Hin) as (v & Hv & B). exists v. split; [|tauto].
  now apply in_getattr.
Qed.

Lemma legal_provides c (p : rec R) : NoDup (c_names c) -> legal_for c p -> provides c p.
Proof. intros Hn [Hs H]. split; [|exact H]. now rewrite Hs. Qed.

Lemma pop_provides c (p : rec R) : incl (c_bdict c) pop_bounds -> legal_pop p -> provides c p.
Proof.
  intros Hi Hl. split; [exact (legal_pop_nodup p Hl)|]. intros k lo hi Hin. apply (proj2 Hl). auto.
Qed.

Lemma merged_provides whole parts c (p : rec R) : concat_of whole parts -> In c parts ->
  provides whole p -> provides c p.
Proof.
  intros [_ Hb] Hc [Hnd H]. split; [exact Hnd|]. intros k lo hi Hin. apply H. rewrite Hb.
  apply in_flat_map. eauto.
Qed.

Ltac in_list := cbn; repeat (first [left; reflexivity | right]).
Tactic Notation "fld" hyp(H) constr(k) ident(v) ident(E) ident(B) :=
  let Hh := fresh "Hh" in
  destruct (provides_field _ _ k _ _ H ltac:(in_list)) as (v & E & Hh & B); clear Hh;
  try rewrite E; cbn [bind].

Lemma sigmoid_mono_x x y x0 k ylo yhi : 0 < k -> ylo <= yhi -> x <= y ->
  sigmoid x x0 k ylo yhi <= sigmoid y x0 k ylo yhi.
Proof.
  intros Hk Hy Hxy. rewrite !sigmoid_R. apply Rplus_le_compat_l. apply Rmult_le_compat_l; [lra|].
  apply logistic_le. nra.
Qed.

(** ** C39 *)

Lemma frac_early_range p lgm t : provides FEC p ->
  exists f, frac_early_cens_kern p lgm t = Ok f /\ 1/4 < f < 3/4.
Proof.
  intros H. unfold frac_early_cens_kern.
  fld H "fec_t_obs_x0" a Ea Ba. fld H "fec_lgm_ylo_early" b Eb Bb. fld H "fec_lgm_ylo_late" c Ec Bc.
  fld H "fec_lgm_yhi_early" d Ed Bd. fld H "fec_lgm_yhi_late" e Ee Be. fld H "fec_lgm_x0" z Ez Bz.
  eexists. split; [reflexivity|]. apply sigmoid_range; apply sigmoid_range; lra.
Qed.

(** ** C40 *)

Lemma ftpt0_range p lgm t : provides FTPT0 p ->
  exists f, ftpt0_kernel p lgm t = Ok f /\ 1/100 <= f <= 99/100.
Proof.
  intros H. unfold ftpt0_kernel.
  fld H "ftpt0_c0_c0" a Ea Ba. fld H "ftpt0_c0_c1" b Eb Bb. fld H "ftpt0_c1" c Ec Bc.
  eexists. split; [reflexivity|]. apply clip_range. unfold FTPT0_LO, FTPT0_HI. cbn. lra.
Qed.

Lemma ftpt0_mono p lgm lgm' t t' f f' : provides FTPT0 p -> lgm <= lgm' -> t <= t' ->
  ftpt0_kernel p lgm t = Ok f -> ftpt0_kernel p lgm' t' = Ok f' -> f <= f'.
Proof.
  intros H Hl Ht. unfold ftpt0_kernel.
  fld H "ftpt0_c0_c0" a Ea Ba. fld H "ftpt0_c0_c1" b Eb Bb. fld H "ftpt0_c1" c Ec Bc.
  cbv zeta. intros [= <-] [= <-]. apply clip_mono. cbn [nadd nmul nsub Num_R].
  apply Rplus_le_compat.
  - apply clip_mono. cbn [nadd nmul nsub Num_R]. apply Rplus_le_compat_l. apply Rmult_le_compat_l; lra.
  - apply Rmult_le_compat_l; lra.
Qed.

(** ** C43 *)

Lemma late_index_range sfx c p lgm : In (sfx, c) [("_alpha", LATE_INDEX_ALPHA); ("_beta", LATE_INDEX_BETA)] ->
  provides c p ->
  exists v, pred_late_index_kern sfx p lgm = Ok v /\ 101/1000 <= v < 2/10.
Proof.
  assert (G : forall (x0 ylo yhi : R), 1/100 < ylo < 2/10 -> 1/100 < yhi < 2/10 ->
    101/1000 <= clip (sigmoid lgm x0 (LATE_INDEX_K : R) ylo yhi)
      (nadd (fst (late_index MAH_PBOUNDS)) EPS_INDEX) (nsub (snd (late_index MAH_PBOUNDS)) EPS_INDEX) < 2/10).
  { intros x0 ylo yhi H1 H2. pose proof (sigmoid_range lgm x0 LATE_INDEX_K ylo yhi _ _ H1 H2) as Hs.
    rewrite clip_R. unfold MAH_PBOUNDS, EPS_INDEX. cbn [late_index fst snd nadd nsub nconst Num_R].
    unfold Rmin, Rmax. repeat destruct Rle_dec; lra. }
  intros [E|[E|[]]] H; injection E as <- <-; unfold pred_late_index_kern; cbn [append].
  - fld H "late_index_x0_alpha" a Ea Ba. fld H "late_index_ylo_alpha" b Eb Bb. fld H "late_index_yhi_alpha" d Ed Bd.
    eexists. split; [reflexivity|]. apply (G a b d); lra.
  - fld H "late_index_x0_beta" a Ea Ba. fld H "late_index_ylo_beta" b Eb Bb. fld H "late_index_yhi_beta" d Ed Bd.
    eexists. split; [reflexivity|]. apply (G a b d); lra.
Qed.

Lemma early_index_range sfx c p lgm t tp :
  In (sfx, c) [("_alpha", EARLY_INDEX_ALPHA); ("_beta", EARLY_INDEX_BETA); ("", EARLY_INDEX_POP)] ->
  provides c p ->
  exists v, pred_early_index_kern sfx p lgm t tp = Ok v /\ 5/10 < v < 4.
Proof.
  assert (G : forall (a b d e f g h : R), 1 < b < 35/10 -> 5/10 < d < 3 -> 2 < f < 4 -> 15/10 < g < 4 ->
    5/10 < clip (sigmoid lgm h EARLY_INDEX_K (get_early_index_ylo a b d tp) (get_early_index_yhi e f g t))
      (nadd (fst (early_index MAH_PBOUNDS)) EPS_INDEX) (nsub (snd (early_index MAH_PBOUNDS)) EPS_INDEX) < 4).
  { intros a b d e f g h H1 H2 H3 H4.
    assert (S1 : 5/10 < get_early_index_ylo a b d tp < 4) by (apply sigmoid_range; lra).
    assert (S2 : 5/10 < get_early_index_yhi e f g t < 4) by (apply sigmoid_range; lra).
    pose proof (sigmoid_range lgm h EARLY_INDEX_K _ _ _ _ S1 S2) as S3.
    rewrite clip_id; [exact S3|].
    unfold MAH_PBOUNDS, EPS_INDEX. cbn [early_index fst snd nadd nsub nconst Num_R]. lra. }
  intros [E|[E|[E|[]]]] H; injection E as <- <-; unfold pred_early_index_kern; cbn [append].
  - fld H "early_index_ylo_x0_alpha" x1 E1 B1. fld H "early_index_ylo_ylo_alpha" x2 E2 B2.
    fld H "early_index_ylo_yhi_alpha" x3 E3 B3. fld H "early_index_yhi_x0_alpha" x4 E4 B4.
    fld H "early_index_yhi_ylo_alpha" x5 E5 B5. fld H "early_index_yhi_yhi_alpha" x6 E6 B6.
    fld H "early_index_lgm_x0_alpha" x7 E7 B7. eexists. split; [reflexivity|]. apply G; lra.
  - fld H "early_index_ylo_x0_beta" x1 E1 B1. fld H "early_index_ylo_ylo_beta" x2 E2 B2.
    fld H "early_index_ylo_yhi_beta" x3 E3 B3. fld H "early_index_yhi_x0_beta" x4 E4 B4.
    fld H "early_index_yhi_ylo_beta" x5 E5 B5. fld H "early_index_yhi_yhi_beta" x6 E6 B6.
    fld H "early_index_lgm_x0_beta" x7 E7 B7. eexists. split; [reflexivity|]. apply G; lra.
  - fld H "early_index_ylo_x0" x1 E1 B1. fld H "early_index_ylo_ylo" x2 E2 B2.
    fld H "early_index_ylo_yhi" x3 E3 B3. fld H "early_index_yhi_x0" x4 E4 B4.
    fld H "early_index_yhi_ylo" x5 E5 B5. fld H "early_index_yhi_yhi" x6 E6 B6.
    fld H "early_index_lgm_x0" x7 E7 B7. eexists. split; [reflexivity|]. apply G; lra.
Qed.

Lemma logtc_range sfx c p lgm t tp :
  In (sfx, c) [("_early", LOGTC_EARLY); ("_late", LOGTC_LATE)] -> provides c p ->
  exists v, pred_logtc_kern sfx p lgm t tp = Ok v /\ -(999/1000) <= v <= 999/1000.
Proof.
  assert (G : forall x : R, -(999/1000) <= clip x
      (nadd (fst (logtc MAH_PBOUNDS)) EPS_INDEX) (nsub (snd (logtc MAH_PBOUNDS)) EPS_INDEX) <= 999/1000).
  { intros x. rewrite clip_R. unfold MAH_PBOUNDS, EPS_INDEX. cbn [logtc fst snd nadd nsub nconst Num_R].
    unfold Rmin, Rmax. repeat destruct Rle_dec; lra. }
  intros [E|[E|[]]] H; injection E as <- <-; unfold pred_logtc_kern, get_c0; cbn [append].
  - fld H "logtc_lgm_c0_tp_ytp_tobs_c0_early" x1 E1 B1. fld H "logtc_lgm_c0_tp_ytp_tobs_c1_early" x2 E2 B2.
    fld H "logtc_lgm_c0_tp_ylo_early" x3 E3 B3. fld H "logtc_lgm_c0_tp_yhi_early" x4 E4 B4.
    fld H "logtc_c0_ss_x0_early" x5 E5 B5. fld H "logtc_lgm_c1_early" x6 E6 B6.
    eexists. split; [reflexivity|]. apply G.
  - fld H "logtc_lgm_c0_tp_ytp_tobs_c0_late" x1 E1 B1. fld H "logtc_lgm_c0_tp_ytp_tobs_c1_late" x2 E2 B2.
    fld H "logtc_lgm_c0_tp_ylo_late" x3 E3 B3. fld H "logtc_lgm_c0_tp_yhi_late" x4 E4 B4.
    fld H "logtc_c0_ss_x0_late" x5 E5 B5. fld H "logtc_lgm_c1_late" x6 E6 B6.
    eexists. split; [reflexivity|]. apply G.
Qed.

(** logtc grows with the observed mass *)
Lemma logtc_mono sfx c p lgm lgm' t tp v v' :
  In (sfx, c) [("_early", LOGTC_EARLY); ("_late", LOGTC_LATE)] -> provides c p -> lgm <= lgm' ->
  pred_logtc_kern sfx p lgm t tp = Ok v -> pred_logtc_kern sfx p lgm' t tp = Ok v' -> v <= v'.
Proof.
  intros [E|[E|[]]] H Hl; injection E as <- <-; unfold pred_logtc_kern, get_c0; cbn [append].
  - fld H "logtc_lgm_c0_tp_ytp_tobs_c0_early" x1 E1 B1. fld H "logtc_lgm_c0_tp_ytp_tobs_c1_early" x2 E2 B2.
    fld H "logtc_lgm_c0_tp_ylo_early" x3 E3 B3. fld H "logtc_lgm_c0_tp_yhi_early" x4 E4 B4.
    fld H "logtc_c0_ss_x0_early" x5 E5 B5. fld H "logtc_lgm_c1_early" x6 E6 B6.
    cbv zeta. intros [= <-] [= <-]. apply clip_mono. cbn [nadd nmul nsub Num_R].
    apply Rplus_le_compat_l. apply Rmult_le_compat_l; lra.
  - fld H "logtc_lgm_c0_tp_ytp_tobs_c0_late" x1 E1 B1. fld H "logtc_lgm_c0_tp_ytp_tobs_c1_late" x2 E2 B2.
    fld H "logtc_lgm_c0_tp_ylo_late" x3 E3 B3. fld H "logtc_lgm_c0_tp_yhi_late" x4 E4 B4.
    fld H "logtc_c0_ss_x0_late" x5 E5 B5. fld H "logtc_lgm_c1_late" x6 E6 B6.
    cbv zeta. intros [= <-] [= <-]. apply clip_mono. cbn [nadd nmul nsub Num_R].
    apply Rplus_le_compat_l. apply Rmult_le_compat_l; lra.
Qed.

(** ** C48 *)

Definition m0_populations : list (string * component * component) :=
  [ ("_early", LGM0_C0_EARLY, LGM0_C1_EARLY); ("_late", LGM0_C0_LATE, LGM0_C1_LATE);
    ("_early_sats", LGM0_C0_EARLY_SATS, LGM0_C1_EARLY_SATS);
    ("_late_sats", LGM0_C0_LATE_SATS, LGM0_C1_LATE_SATS) ].

Lemma slope_gain (x xtp ytp x0 k ylo : R) : ylo < 0 -> x <= xtp -> ytp <= sig_slope x xtp ytp x0 k ylo 0.
Proof.
  intros Hy Hx. unfold sig_slope. cbn [nadd nmul nsub Num_R].
  pose proof (sigmoid_range_le x x0 k ylo 0 ylo 0 ltac:(lra) ltac:(lra)). nra.
Qed.

Lemma c0_pos sfx c0 c1 p t tp : In (sfx, c0, c1) m0_populations -> provides c0 p ->
  exists v, pred_c0_kern sfx p t tp = Ok v /\ (t <= 15 -> 1/100 < v) /\
    exists a b, has p ("lgm0pop_c0_clip_c0" ++ sfx) a /\ has p ("lgm0pop_c0_clip_c1" ++ sfx) b /\ a + b * tp <= v.
Proof.
  assert (G : forall (y x l a b : R), 1/100 < y -> l < 0 ->
    (t <= 15 -> 1/100 < clip_min (sig_slope t LGM0_C0_XTP y x LGM0_GLOBAL_K l 0) (a + b * tp)) /\
    a + b * tp <= clip_min (sig_slope t LGM0_C0_XTP y x LGM0_GLOBAL_K l 0) (a + b * tp)).
  { intros y x l a b Hy Hl. pose proof (clip_min_le (sig_slope t LGM0_C0_XTP y x LGM0_GLOBAL_K l 0) (a + b * tp)).
    split; [|tauto]. intros Ht. pose proof (slope_gain t LGM0_C0_XTP y x LGM0_GLOBAL_K l Hl Ht). lra. }
  intros [E|[E|[E|[E|[]]]]] H; injection E as <- <- <-; unfold pred_c0_kern; cbn [append];
  [ destruct (provides_field _ _ "lgm0pop_c0_ytp_early" _ _ H ltac:(in_list)) as (y & E1 & _ & B1);
    destruct (provides_field _ _ "lgm0pop_c0_t_obs_x0_early" _ _ H ltac:(in_list)) as (x & E2 & _ & B2);
    destruct (provides_field _ _ "lgm0pop_c0_ylo_early" _ _ H ltac:(in_list)) as (l & E3 & _ & B3);
    destruct (provides_field _ _ "lgm0pop_c0_clip_c0_early" _ _ H ltac:(in_list)) as (a & E4 & F4 & B4);
    destruct (provides_field _ _ "lgm0pop_c0_clip_c1_early" _ _ H ltac:(in_list)) as (b & E5 & F5 & B5)
  | destruct (provides_field _ _ "lgm0pop_c0_ytp_late" _ _ H ltac:(in_list)) as (y & E1 & _ & B1);
    destruct (provides_field _ _ "lgm0pop_c0_t_obs_x0_late" _ _ H ltac:(in_list)) as (x & E2 & _ & B2);
    destruct (provides_field _ _ "lgm0pop_c0_ylo_late" _ _ H ltac:(in_list)) as (l & E3 & _ & B3);
    destruct (provides_field _ _ "lgm0pop_c0_clip_c0_late" _ _ H ltac:(in_list)) as (a & E4 & F4 & B4);
    destruct (provides_field _ _ "lgm0pop_c0_clip_c1_late" _ _ H ltac:(in_list)) as (b & E5 & F5 & B5)
  | destruct (provides_field _ _ "lgm0pop_c0_ytp_early_sats" _ _ H ltac:(in_list)) as (y & E1 & _ & B1);
    destruct (provides_field _ _ "lgm0pop_c0_t_obs_x0_early_sats" _ _ H ltac:(in_list)) as (x & E2 & _ & B2);
    destruct (provides_field _ _ "lgm0pop_c0_ylo_early_sats" _ _ H ltac:(in_list)) as (l & E3 & _ & B3);
    destruct (provides_field _ _ "lgm0pop_c0_clip_c0_early_sats" _ _ H ltac:(in_list)) as (a & E4 & F4 & B4);
    destruct (provides_field _ _ "lgm0pop_c0_clip_c1_early_sats" _ _ H ltac:(in_list)) as (b & E5 & F5 & B5)
  | destruct (provides_field _ _ "lgm0pop_c0_ytp_late_sats" _ _ H ltac:(in_list)) as (y & E1 & _ & B1);
    destruct (provides_field _ _ "lgm0pop_c0_t_obs_x0_late_sats" _ _ H ltac:(in_list)) as (x & E2 & _ & B2);
    destruct (provides_field _ _ "lgm0pop_c0_ylo_late_sats" _ _ H ltac:(in_list)) as (l & E3 & _ & B3);
    destruct (provides_field _ _ "lgm0pop_c0_clip_c0_late_sats" _ _ H ltac:(in_list)) as (a & E4 & F4 & B4);
    destruct (provides_field _ _ "lgm0pop_c0_clip_c1_late_sats" _ _ H ltac:(in_list)) as (b & E5 & F5 & B5) ];
  rewrite E1, E2, E3, E4, E5; cbn [bind];
  (eexists; split; [reflexivity|]);
  destruct (G y x l a b ltac:(lra) ltac:(lra)) as [G1 G2];
  (split; [exact G1|]); exists a, b; refine (conj F4 (conj F5 G2)).
Qed.

Lemma c1_pos sfx c0 c1 p t tp : In (sfx, c0, c1) m0_populations -> provides c1 p ->
  exists v, pred_c1_kern sfx p t tp = Ok v /\ 1/1000 < v.
Proof.
  assert (G : forall (y x l a b d : R), 2/100 < b -> 1/1000 < d ->
    1/1000 < clip_min (sig_slope t LGM0_C1_XTP y x LGM0_GLOBAL_K l 0) (sigmoid tp a LGM0_CLIP_TP_K b d)).
  { intros y x l a b d Hb Hd. pose proof (clip_min_le (sig_slope t LGM0_C1_XTP y x LGM0_GLOBAL_K l 0) (sigmoid tp a LGM0_CLIP_TP_K b d)).
    pose proof (sigmoid_range tp a LGM0_CLIP_TP_K b d (1/1000) (b + d + 1) ltac:(lra) ltac:(lra)). lra. }
  intros [E|[E|[E|[E|[]]]]] H; injection E as <- <- <-; unfold pred_c1_kern; cbn [append].
  - fld H "lgm0pop_c1_ytp_early" x1 E1 B1. fld H "lgm0pop_c1_t_obs_x0_early" x2 E2 B2.
    fld H "lgm0pop_c1_ylo_early" x3 E3 B3. fld H "lgm0pop_c1_clip_x0_early" x4 E4 B4.
    fld H "lgm0pop_c1_clip_ylo_early" x5 E5 B5. fld H "lgm0pop_c1_clip_yhi_early" x6 E6 B6.
    eexists. split; [reflexivity|]. apply G; lra.
  - fld H "lgm0pop_c1_ytp_late" x1 E1 B1. fld H "lgm0pop_c1_t_obs_x0_late" x2 E2 B2.
    fld H "lgm0pop_c1_ylo_late" x3 E3 B3. fld H "lgm0pop_c1_clip_x0_late" x4 E4 B4.
    fld H "lgm0pop_c1_clip_ylo_late" x5 E5 B5. fld H "lgm0pop_c1_clip_yhi_late" x6 E6 B6.
    eexists. split; [reflexivity|]. apply G; lra.
  - fld H "lgm0pop_c1_ytp_early_sats" x1 E1 B1. fld H "lgm0pop_c1_t_obs_x0_early_sats" x2 E2 B2.
    fld H "lgm0pop_c1_ylo_early_sats" x3 E3 B3. fld H "lgm0pop_c1_clip_x0_early_sats" x4 E4 B4.
    fld H "lgm0pop_c1_clip_ylo_early_sats" x5 E5 B5. fld H "lgm0pop_c1_clip_yhi_early_sats" x6 E6 B6.
    eexists. split; [reflexivity|]. apply G; lra.
  - fld H "lgm0pop_c1_ytp_late_sats" x1 E1 B1. fld H "lgm0pop_c1_t_obs_x0_late_sats" x2 E2 B2.
    fld H "lgm0pop_c1_ylo_late_sats" x3 E3 B3. fld H "lgm0pop_c1_clip_x0_late_sats" x4 E4 B4.
    fld H "lgm0pop_c1_clip_ylo_late_sats" x5 E5 B5. fld H "lgm0pop_c1_clip_yhi_late_sats" x6 E6 B6.
    eexists. split; [reflexivity|]. apply G; lra.
Qed.

Lemma logm0_gain sfx c0 c1 p lgm t tp : In (sfx, c0, c1) m0_populations -> provides c0 p -> provides c1 p ->
  exists v, pred_logm0_kern sfx p lgm t tp = Ok v /\
    (t <= 15 -> 12 <= lgm -> lgm + 1/100 < v) /\
    (12 <= lgm -> exists a b, has p ("lgm0pop_c0_clip_c0" ++ sfx) a /\ has p ("lgm0pop_c0_clip_c1" ++ sfx) b /\
       lgm + (a + b * tp) <= v).
Proof.
  intros Hin H0 H1. unfold pred_logm0_kern.
  destruct (c0_pos _ _ _ p t tp Hin H0) as (v0 & -> & B0 & a & b & Ha & Hb & Hc). cbn [bind].
  destruct (c1_pos _ _ _ p t tp Hin H1) as (v1 & -> & B1). cbn [bind].
  eexists. split; [reflexivity|]. unfold TP_LGMP. cbn [nadd nmul nsub nconst Num_R]. split.
  - intros Ht Hl. specialize (B0 Ht). nra.
  - intros Hl. exists a, b. refine (conj Ha (conj Hb _)). nra.
Qed.

Lemma logm0_increasing sfx c0 c1 p lgm lgm' t tp v v' : In (sfx, c0, c1) m0_populations ->
  provides c0 p -> provides c1 p -> lgm < lgm' ->
  pred_logm0_kern sfx p lgm t tp = Ok v -> pred_logm0_kern sfx p lgm' t tp = Ok v' -> v < v'.
Proof.
  intros Hin H0 H1 Hl. unfold pred_logm0_kern.
  destruct (c0_pos _ _ _ p t tp Hin H0) as (v0 & -> & _). cbn [bind].
  destruct (c1_pos _ _ _ p t tp Hin H1) as (v1 & -> & B1). cbn [bind]. cbv zeta.
  intros [= <-] [= <-]. unfold TP_LGMP. cbn [nadd nmul nsub nconst Num_R]. nra.
Qed.
