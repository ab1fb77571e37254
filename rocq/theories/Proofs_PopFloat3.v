(** The published bounds, rounded to single and to double precision. *)

From Coq Require Import Reals ZArith String List Bool Arith Lra Lia.
From Flocq Require Import Core.
From Verif Require Import Model_Num Model_Kernels Model_Base Model_PopBase Model_PopData Model_PopParams
  Model_Float Spec_Pop Spec_Float Spec_PopFloat RealAux Proofs_Float Proofs_Float2 Proofs_Float3
  Proofs_Float4 Proofs_Float5 Proofs_FloatQ Proofs_PopBase Proofs_PopParams Proofs_PopAll
  Proofs_PopFloat Proofs_PopFloat2.
Import ListNotations.
Local Open Scope R_scope.
Local Open Scope string_scope.

Definition SINGLES : list component :=
  [ TPCENS_FLEX; TP_SATS; UTP; TPCENS;
    LGM0_C0_EARLY; LGM0_C1_EARLY; LGM0_C0_LATE; LGM0_C1_LATE;
    LGM0_C0_EARLY_SATS; LGM0_C1_EARLY_SATS; LGM0_C0_LATE_SATS; LGM0_C1_LATE_SATS;
    LOGTC_EARLY; LOGTC_LATE; EARLY_INDEX_ALPHA; EARLY_INDEX_BETA; EARLY_INDEX_POP;
    LATE_INDEX_ALPHA; LATE_INDEX_BETA; FEC; FTPT0; COV ].

(** The bounds of all components, and the same as fractions. *)
Definition ALL_BOUNDS : list (string * (R * R)) := flat_map c_bdict SINGLES.

Definition FRACTIONS : list (string * (frac * frac)) :=
  ([
    ("cen_tp_lgm_x0_x0", ((11, 1), (14, 1)));
    ("cen_tp_t_obs_x0_x0", ((3, 1), (10, 1)));
    ("cen_tp_x0_ylo_early", ((5, 10), (1, 1)));
    ("cen_tp_x0_yhi_early", ((1, 1), (18, 10)));
    ("cen_tp_x0_ylo_late", ((5, 10), (1, 1)));
    ("cen_tp_x0_yhi_late", ((1, 1), (18, 10)));
    ("utp_loc_lgm_ylo_t0", ((5, 1), (10, 1)));
    ("utp_loc_lgm_ylo_early", ((4, 10), (8, 10)));
    ("utp_loc_lgm_ylo_late", ((15, 100), (25, 100)));
    ("utp_loc_lgm_x0", ((11, 1), (13, 1)));
    ("utp_scale_lgm_ylo_t0", ((6, 1), (11, 1)));
    ("utp_scale_lgm_ylo_early", ((1, 10), (5, 10)));
    ("utp_scale_lgm_ylo_late", ((1, 10), (6, 10)));
    ("utp_loc", ((1001, 10000), (9999, 10000)));
    ("utp_scale", ((1, 10000), (1, 1)));
    ("tpck_scale_boost_early", ((1, 100), (9, 10)));
    ("tpck_scale_mh_lo", ((1, 10), (9, 10)));
    ("tpck_scale_mh_hi", ((1, 10), (9, 10)));
    ("lgm0pop_c0_ytp_early", ((1, 100), (4, 10)));
    ("lgm0pop_c0_ylo_early", ((-15, 100), (-5, 100)));
    ("lgm0pop_c0_clip_c0_early", ((5, 10), (9, 10)));
    ("lgm0pop_c0_clip_c1_early", ((-1, 10), (-1, 100)));
    ("lgm0pop_c0_t_obs_x0_early", ((15, 10), (6, 1)));
    ("lgm0pop_c1_ytp_early", ((1, 1000), (1, 10)));
    ("lgm0pop_c1_ylo_early", ((-5, 100), (-1, 1000)));
    ("lgm0pop_c1_clip_x0_early", ((4, 1), (11, 1)));
    ("lgm0pop_c1_clip_ylo_early", ((2, 100), (15, 100)));
    ("lgm0pop_c1_clip_yhi_early", ((1, 1000), (5, 100)));
    ("lgm0pop_c1_t_obs_x0_early", ((3, 1), (10, 1)));
    ("lgm0pop_c0_ytp_late", ((1, 100), (4, 10)));
    ("lgm0pop_c0_ylo_late", ((-15, 100), (-5, 100)));
    ("lgm0pop_c0_clip_c0_late", ((5, 10), (9, 10)));
    ("lgm0pop_c0_clip_c1_late", ((-1, 10), (-1, 100)));
    ("lgm0pop_c0_t_obs_x0_late", ((15, 10), (6, 1)));
    ("lgm0pop_c1_ytp_late", ((1, 1000), (1, 10)));
    ("lgm0pop_c1_ylo_late", ((-5, 100), (-1, 1000)));
    ("lgm0pop_c1_clip_x0_late", ((4, 1), (11, 1)));
    ("lgm0pop_c1_clip_ylo_late", ((2, 100), (15, 100)));
    ("lgm0pop_c1_clip_yhi_late", ((1, 1000), (5, 100)));
    ("lgm0pop_c1_t_obs_x0_late", ((3, 1), (10, 1)));
    ("lgm0pop_c0_ytp_early_sats", ((1, 100), (4, 10)));
    ("lgm0pop_c0_ylo_early_sats", ((-15, 100), (-5, 100)));
    ("lgm0pop_c0_clip_c0_early_sats", ((5, 10), (9, 10)));
    ("lgm0pop_c0_clip_c1_early_sats", ((-1, 10), (-1, 100)));
    ("lgm0pop_c0_t_obs_x0_early_sats", ((15, 10), (6, 1)));
    ("lgm0pop_c1_ytp_early_sats", ((1, 1000), (1, 10)));
    ("lgm0pop_c1_ylo_early_sats", ((-5, 100), (-1, 1000)));
    ("lgm0pop_c1_clip_x0_early_sats", ((4, 1), (11, 1)));
    ("lgm0pop_c1_clip_ylo_early_sats", ((2, 100), (15, 100)));
    ("lgm0pop_c1_clip_yhi_early_sats", ((1, 1000), (5, 100)));
    ("lgm0pop_c1_t_obs_x0_early_sats", ((3, 1), (10, 1)));
    ("lgm0pop_c0_ytp_late_sats", ((1, 100), (4, 10)));
    ("lgm0pop_c0_ylo_late_sats", ((-15, 100), (-5, 100)));
    ("lgm0pop_c0_clip_c0_late_sats", ((5, 10), (9, 10)));
    ("lgm0pop_c0_clip_c1_late_sats", ((-1, 10), (-1, 100)));
    ("lgm0pop_c0_t_obs_x0_late_sats", ((15, 10), (6, 1)));
    ("lgm0pop_c1_ytp_late_sats", ((1, 1000), (1, 10)));
    ("lgm0pop_c1_ylo_late_sats", ((-5, 100), (-1, 1000)));
    ("lgm0pop_c1_clip_x0_late_sats", ((4, 1), (11, 1)));
    ("lgm0pop_c1_clip_ylo_late_sats", ((2, 100), (15, 100)));
    ("lgm0pop_c1_clip_yhi_late_sats", ((1, 1000), (5, 100)));
    ("lgm0pop_c1_t_obs_x0_late_sats", ((3, 1), (10, 1)));
    ("logtc_lgm_c0_tp_ytp_tobs_c0_early", ((2, 10), (9, 10)));
    ("logtc_lgm_c0_tp_ytp_tobs_c1_early", ((0, 1), (5, 100)));
    ("logtc_lgm_c0_tp_ylo_early", ((2, 100), (15, 100)));
    ("logtc_lgm_c0_tp_yhi_early", ((-25, 100), (0, 1)));
    ("logtc_lgm_c1_early", ((2, 100), (15, 100)));
    ("logtc_c0_ss_x0_early", ((11, 1), (13, 1)));
    ("logtc_lgm_c0_tp_ytp_tobs_c0_late", ((2, 10), (9, 10)));
    ("logtc_lgm_c0_tp_ytp_tobs_c1_late", ((0, 1), (5, 100)));
    ("logtc_lgm_c0_tp_ylo_late", ((2, 100), (15, 100)));
    ("logtc_lgm_c0_tp_yhi_late", ((-25, 100), (0, 1)));
    ("logtc_lgm_c1_late", ((2, 100), (15, 100)));
    ("logtc_c0_ss_x0_late", ((11, 1), (13, 1)));
    ("early_index_ylo_x0_alpha", ((1, 1), (7, 1)));
    ("early_index_ylo_ylo_alpha", ((1, 1), (35, 10)));
    ("early_index_ylo_yhi_alpha", ((5, 10), (3, 1)));
    ("early_index_yhi_ylo_alpha", ((2, 1), (4, 1)));
    ("early_index_yhi_yhi_alpha", ((15, 10), (4, 1)));
    ("early_index_yhi_x0_alpha", ((4, 1), (13, 1)));
    ("early_index_lgm_x0_alpha", ((12, 1), (14, 1)));
    ("early_index_ylo_x0_beta", ((1, 1), (7, 1)));
    ("early_index_ylo_ylo_beta", ((1, 1), (35, 10)));
    ("early_index_ylo_yhi_beta", ((5, 10), (3, 1)));
    ("early_index_yhi_ylo_beta", ((2, 1), (4, 1)));
    ("early_index_yhi_yhi_beta", ((15, 10), (4, 1)));
    ("early_index_yhi_x0_beta", ((4, 1), (13, 1)));
    ("early_index_lgm_x0_beta", ((12, 1), (14, 1)));
    ("early_index_ylo_x0", ((1, 1), (7, 1)));
    ("early_index_ylo_ylo", ((1, 1), (35, 10)));
    ("early_index_ylo_yhi", ((5, 10), (3, 1)));
    ("early_index_yhi_ylo", ((2, 1), (4, 1)));
    ("early_index_yhi_yhi", ((15, 10), (4, 1)));
    ("early_index_yhi_x0", ((4, 1), (13, 1)));
    ("early_index_lgm_x0", ((12, 1), (14, 1)));
    ("late_index_x0_alpha", ((115, 10), (14, 1)));
    ("late_index_ylo_alpha", ((1, 100), (2, 10)));
    ("late_index_yhi_alpha", ((1, 100), (2, 10)));
    ("late_index_x0_beta", ((115, 10), (14, 1)));
    ("late_index_ylo_beta", ((1, 100), (2, 10)));
    ("late_index_yhi_beta", ((1, 100), (2, 10)));
    ("fec_t_obs_x0", ((5, 1), (13, 1)));
    ("fec_lgm_x0", ((11, 1), (14, 1)));
    ("fec_lgm_ylo_early", ((25, 100), (75, 100)));
    ("fec_lgm_ylo_late", ((25, 100), (75, 100)));
    ("fec_lgm_yhi_early", ((25, 100), (75, 100)));
    ("fec_lgm_yhi_late", ((25, 100), (75, 100)));
    ("ftpt0_c0_c0", ((1, 100), (99, 100)));
    ("ftpt0_c0_c1", ((1, 100), (1, 10)));
    ("ftpt0_c1", ((1, 100), (25, 100)));
    ("std_u_logm0_ylo", ((1, 100), (100, 1)));
    ("std_u_logtc_ylo", ((1, 100), (100, 1)));
    ("std_u_early_ylo", ((1, 100), (100, 1)));
    ("std_u_late_ylo", ((1, 100), (100, 1)));
    ("std_u_logm0_yhi", ((1, 100), (100, 1)));
    ("std_u_logtc_yhi", ((1, 100), (100, 1)));
    ("std_u_early_yhi", ((1, 100), (100, 1)));
    ("std_u_late_yhi", ((1, 100), (100, 1)));
    ("rho_logtc_logm0", ((-3, 10), (3, 10)));
    ("rho_early_logm0", ((-3, 10), (3, 10)));
    ("rho_early_logtc", ((-3, 10), (3, 10)));
    ("rho_late_logm0", ((-3, 10), (3, 10)));
    ("rho_late_logtc", ((-3, 10), (3, 10)));
    ("rho_late_early", ((-3, 10), (3, 10)));
    ("cov_lgm_x0_logm0", ((115, 10), (14, 1)));
    ("cov_lgm_x0_logtc", ((115, 10), (14, 1)));
    ("cov_lgm_x0_early", ((115, 10), (14, 1)));
    ("cov_lgm_x0_late", ((115, 10), (14, 1)))
  ])%Z.

Lemma fractions_ok : Forall2 (fun b q => fst b = fst q /\ fst (snd b) = fr (fst (snd q)) /\
  snd (snd b) = fr (snd (snd q))) ALL_BOUNDS FRACTIONS.
Proof.
  cbn [ALL_BOUNDS flat_map SINGLES c_bdict app TPCENS_FLEX TP_SATS UTP TPCENS
    LGM0_C0_EARLY LGM0_C1_EARLY LGM0_C0_LATE LGM0_C1_LATE
    LGM0_C0_EARLY_SATS LGM0_C1_EARLY_SATS LGM0_C0_LATE_SATS LGM0_C1_LATE_SATS
    LOGTC_EARLY LOGTC_LATE EARLY_INDEX_ALPHA EARLY_INDEX_BETA EARLY_INDEX_POP
    LATE_INDEX_ALPHA LATE_INDEX_BETA FEC FTPT0 COV].
  unfold ALL_BOUNDS, SINGLES, FRACTIONS.
  cbn [flat_map c_bdict app TPCENS_FLEX TP_SATS UTP TPCENS
    LGM0_C0_EARLY LGM0_C1_EARLY LGM0_C0_LATE LGM0_C1_LATE
    LGM0_C0_EARLY_SATS LGM0_C1_EARLY_SATS LGM0_C0_LATE_SATS LGM0_C1_LATE_SATS
    LOGTC_EARLY LOGTC_LATE EARLY_INDEX_ALPHA EARLY_INDEX_BETA EARLY_INDEX_POP
    LATE_INDEX_ALPHA LATE_INDEX_BETA FEC FTPT0 COV].
  repeat (apply Forall2_cons;
    [cbn [fst snd fr]; split; [reflexivity|]; unfold fr; cbn [fst snd]; split; lra|]).
  apply Forall2_nil.
Qed.

(** The largest value a parameter can take. *)
Definition ftop (emin prec : Z) (lo hi : frac) : frac :=
  let r := frnd emin prec in
  r (fadd (r lo) (r (fsub (r hi) (r lo)))).

Definition fcheck (emin prec : Z) (over : list string) (slack : frac) (e : string * (frac * frac)) : bool :=
  let '(k, (lo, hi)) := e in
  let r := frnd emin prec in
  (0 <? snd lo)%Z && (0 <? snd hi)%Z && fleb lo hi &&
  fleb (-128, 1)%Z lo && fleb hi (128, 1)%Z &&
  (fleb (ftop emin prec lo hi) (r hi) ||
   existsb (String.eqb k) over && fleb (ftop emin prec lo hi) (fadd (r hi) slack)).

Definition slack32 : frac := (1, 2 ^ 28)%Z.
Definition slack64 : frac := (1, 2 ^ 57)%Z.

Lemma check32 : forallb (fcheck (-149) 24 overshooting32 slack32) FRACTIONS = true.
Proof. vm_compute. reflexivity. Qed.

Lemma check64 : forallb (fcheck (-1074) 53 overshooting64 slack64) FRACTIONS = true.
Proof. vm_compute. reflexivity. Qed.

Lemma bound_fraction : forall k lo hi, In (k, (lo, hi)) ALL_BOUNDS ->
  exists ql qh, In (k, (ql, qh)) FRACTIONS /\ lo = fr ql /\ hi = fr qh.
Proof.
  pose proof fractions_ok as H. revert H. generalize ALL_BOUNDS FRACTIONS.
  intros l m H. induction H as [|[k1 [l1 h1]] [k2 [ql qh]] l m (E1 & E2 & E3) _ IH]; intros k lo hi I.
  - destruct I.
  - cbn [fst snd] in E1, E2, E3. destruct I as [I | I].
    + injection I as <- <- <-. exists ql, qh. subst k2. split; [now left | auto].
    + destruct (IH k lo hi I) as (a & b & J & Q). exists a, b. split; [now right | exact Q].
Qed.

Lemma bound_facts : forall emin prec over slack, (0 < prec)%Z -> fpos slack ->
  forallb (fcheck emin prec over slack) FRACTIONS = true ->
  forall k lo hi, In (k, (lo, hi)) ALL_BOUNDS ->
  lo <= hi /\ -128 <= lo /\ hi <= 128 /\
  let rd := rne emin prec in
  (rd (rd lo + rd (rd hi - rd lo)) <= rd hi \/
   In k over /\ rd (rd lo + rd (rd hi - rd lo)) <= rd hi + fr slack).
Proof.
  intros emin prec over slack Hp Hs H k lo hi I.
  destruct (bound_fraction k lo hi I) as (ql & qh & J & -> & ->).
  rewrite forallb_forall in H. specialize (H _ J). unfold fcheck in H.
  apply andb_prop in H as [H H6]. apply andb_prop in H as [H H5]. apply andb_prop in H as [H H4].
  apply andb_prop in H as [H H3]. apply andb_prop in H as [H1 H2].
  apply Z.ltb_lt in H1. apply Z.ltb_lt in H2.
  assert (P1 : fpos ql) by exact H1. assert (P2 : fpos qh) by exact H2.
  assert (P128 : fpos (128, 1)%Z) by (unfold fpos; cbn; lia).
  assert (Pm : fpos (-128, 1)%Z) by (unfold fpos; cbn; lia).
  split; [now apply fleb_le|].
  split; [apply (fleb_le _ _ Pm P1) in H4; unfold fr at 1 in H4; cbn [fst snd] in H4; lra|].
  split; [apply (fleb_le _ _ P2 P128) in H5; unfold fr at 2 in H5; cbn [fst snd] in H5; lra|].
  cbv zeta.
  pose proof (fpos_rnd emin prec) as FP. pose proof (fr_rnd emin prec) as FR.
  assert (ET : fr (ftop emin prec ql qh) = rne emin prec (rne emin prec (fr ql) +
    rne emin prec (rne emin prec (fr qh) - rne emin prec (fr ql)))).
  { unfold ftop. rewrite FR, fr_add, !FR, fr_sub, !FR by (auto 10 using fpos_add, fpos_sub). reflexivity. }
  assert (PT : fpos (ftop emin prec ql qh)) by (unfold ftop; auto 10 using fpos_add, fpos_sub).
  rewrite <- ET, <- (FR qh P2).
  apply orb_prop in H6 as [H6 | H6].
  - left. apply fleb_le; auto.
  - right. apply andb_prop in H6 as [H6 H7]. split.
    + apply existsb_exists in H6 as (k' & I' & E). apply String.eqb_eq in E. now subst k'.
    + rewrite <- fr_add by auto. apply fleb_le; auto using fpos_add.
Qed.

(** ** The tuples *)

Lemma gmap_field : forall {A} {N : Num A} ns (us : list A) bs k bd,
  List.length ns = List.length bs -> List.length us = List.length bs ->
  In (k, bd) (combine ns bs) ->
  exists v, In (uname k, v) (combine (map uname ns) us) /\
            In (k, get_bounded_param v bd) (combine ns (gmap us bs)).
Proof.
  intros A N ns. induction ns as [|n ns IH]; intros [|u us] [|b bs] k bd H1 H2 I;
    cbn [combine map In List.length] in *; try discriminate; try easy.
  injection H1 as H1. injection H2 as H2. unfold gmap. cbn [combine map In]. fold (gmap us bs).
  destruct I as [I | I].
  - injection I as -> ->. exists u. cbn [fst snd]. auto.
  - destruct (IH us bs k bd H1 H2 I) as (v & J1 & J2). exists v. auto.
Qed.

Lemma gacts_field : forall {A} {N : Num A} c (b : rec A -> res (rec A)) (u : rec A), wfc c -> gacts c b ->
  shaped (c_unames c) u ->
  exists p, b u = Ok p /\ shaped (c_names c) p /\
    forall k bd, In (k, bd) (c_bdict c) ->
      exists v, has u (uname k) v /\ has p k (get_bounded_param v bd).
Proof.
  intros A N c b u Hw Ha Hs. eexists. split; [exact (Ha u Hs)|].
  pose proof (guvlen c u Hw Hs) as L. pose proof (wfc_bnds_length c Hw) as Lb.
  assert (Lg : List.length (gmap (values u) (bnds c)) = List.length (bnds c)) by now apply gmap_length.
  split.
  - unfold shaped. apply fields_combine. lia.
  - intros k bd I. rewrite (bdict_combine c Hw) in I.
    destruct (gmap_field (c_names c) (values u) (bnds c) k bd (eq_sym Lb) L I) as (v & J1 & J2).
    exists v. split; [|exact J2]. unfold has.
    rewrite (shaped_combine _ _ Hs). exact J1.
Qed.

Section Machine.
  Variable F : arith.
  Variable big : R.
  Local Notation X := (Num_xfl F big).

  (** What the bounding functions have in common. *)
  Definition bounds_fields (c : component) (b : rec xr -> res (rec xr)) : Prop :=
    forall u, shaped (c_unames c) u -> exists p, b u = Ok p /\ shaped (c_names c) p /\
      forall k bd, In (k, bd) (c_bdict c) ->
        exists k' v, has u k' v /\ has p k (@get_bounded_param xr X v bd).

  Lemma gacts_bounds c b : wfc c -> @gacts xr X c b -> bounds_fields c b.
  Proof.
    intros Hw Ha u Hs. destruct (gacts_field c b u Hw Ha Hs) as (p & E & Sp & H).
    exists p. split; [exact E|]. split; [exact Sp|]. intros k bd I.
    destruct (H k bd I) as (v & J1 & J2). exists (uname k), v. auto.
  Qed.

  Lemma late_bounds : bounds_fields LATE_INDEX_BIMOD (@get_bounded_late_index_params xr X).
  Proof.
    intros u Hs. destruct (late_usplit u Hs) as (ua & ub & -> & Ha & Hb).
    eexists. split; [exact (gacts_late ua ub Ha Hb)|].
    pose proof wfc_LATE_INDEX_ALPHA as WA. pose proof wfc_LATE_INDEX_BETA as WB.
    pose proof (guvlen LB ub WB Hb) as L. pose proof (wfc_bnds_length LB WB) as Lb.
    assert (Lg : List.length (@gmap xr X (values ub) (bnds LB)) = List.length (bnds LB)) by now apply gmap_length.
    destruct (concat_names _ _ cat_LATE_INDEX_BIMOD) as (En & _ & _).
    cbn [flat_map] in En. rewrite app_nil_r in En.
    pose proof late_lengths as LL. unfold LA, LB in *.
    split.
    - unfold shaped. rewrite map_app. rewrite En. f_equal; apply fields_combine; lia.
    - intros k bd I. destruct cat_LATE_INDEX_BIMOD as [_ Cb].
      cbn [flat_map] in Cb. rewrite app_nil_r in Cb. rewrite Cb in I.
      apply in_app_or in I as [I | I].
      + rewrite (bdict_combine _ WA) in I. change (bnds LATE_INDEX_ALPHA) with (bnds LATE_INDEX_BETA) in I.
        destruct (gmap_field (N := X) (c_names LATE_INDEX_ALPHA) (values ub) (bnds LATE_INDEX_BETA) k bd ltac:(lia) L I) as (v & J1 & J2).
        assert (Hv : In v (values ub)) by (apply in_combine_r in J1; exact J1).
        unfold values in Hv. apply in_map_iff in Hv as ([k' v'] & E & Hv). cbn in E. subst v'.
        exists k', v. split; apply in_or_app; [now right | now left].
      + rewrite (bdict_combine _ WB) in I.
        destruct (gmap_field (N := X) (c_names LATE_INDEX_BETA) (values ub) (bnds LATE_INDEX_BETA) k bd ltac:(lia) L I) as (v & J1 & J2).
        exists (uname k), v. split; apply in_or_app; right; [|exact J2].
        rewrite (shaped_combine _ _ Hb). exact J1.
  Qed.

  Lemma singles_wf : List.Forall wfc SINGLES.
  Proof. unfold SINGLES. repeat (apply List.Forall_cons; [auto with wf|]). apply List.Forall_nil. Qed.

  Lemma bounders_act c b : In (c, b) (machine_bounders F big) ->
    (wfc c /\ @gacts xr X c b) \/ (c = LATE_INDEX_BIMOD /\ b = @get_bounded_late_index_params xr X).
  Proof.
    intros H. unfold machine_bounders in H. cbv zeta in H. apply in_app_or in H as [H | H].
    - left. apply in_map_iff in H as (c' & E & I). injection E as <- <-.
      pose proof singles_wf as W. rewrite List.Forall_forall in W. pose proof (W c' I) as Hc.
      split; [exact Hc | now apply gacts_single].
    - cbn [In] in H.
      repeat (destruct H as [H | H];
        [injection H as <- <-;
         first [ left; split; [auto with wf|];
                 first [ apply gacts_pair; [auto with wf | auto with wf | auto with wf |
                           first [exact cat_LGM0_EARLY | exact cat_LGM0_LATE | exact cat_LGM0_EARLY_SATS
                                 | exact cat_LGM0_LATE_SATS | exact cat_LOGTC_BIMOD | exact cat_EARLY_INDEX_BIMOD]]
                       | apply gacts_quad; [auto with wf | auto with wf | auto with wf | auto with wf | auto with wf |
                           first [exact cat_LGM0_BIMOD | exact cat_LGM0_BIMOD_SATS]] ]
               | right; split; reflexivity ]|]).
      destruct H.
  Qed.

  Lemma bounders_fields c b : In (c, b) (machine_bounders F big) -> bounds_fields c b.
  Proof.
    intros H. destruct (bounders_act c b H) as [[Hw Ha] | [-> ->]];
      [now apply gacts_bounds | exact late_bounds].
  Qed.

  Lemma bounders_bounds c b : In (c, b) (machine_bounders F big) -> incl (c_bdict c) ALL_BOUNDS.
  Proof.
    intros H. unfold machine_bounders in H. cbv zeta in H. apply in_app_or in H as [H | H].
    - apply in_map_iff in H as (c' & E & I). injection E as <- <-.
      intros x Hx. unfold ALL_BOUNDS. apply in_flat_map. now exists c'.
    - assert (HC : forall whole parts, concat_of whole parts -> incl parts SINGLES ->
        incl (c_bdict whole) ALL_BOUNDS).
      { intros whole parts [_ E] HI x Hx. rewrite E in Hx. apply in_flat_map in Hx as (c' & I & J).
        apply in_flat_map. exists c'. split; [now apply HI | exact J]. }
      cbn [In] in H.
      repeat (destruct H as [H | H];
        [injection H as <- _;
         first [ apply (HC _ _ cat_LGM0_EARLY) | apply (HC _ _ cat_LGM0_LATE)
               | apply (HC _ _ cat_LGM0_EARLY_SATS) | apply (HC _ _ cat_LGM0_LATE_SATS)
               | apply (HC _ _ cat_LGM0_BIMOD) | apply (HC _ _ cat_LGM0_BIMOD_SATS)
               | apply (HC _ _ cat_LOGTC_BIMOD) | apply (HC _ _ cat_EARLY_INDEX_BIMOD)
               | apply (HC _ _ cat_LATE_INDEX_BIMOD) ];
         intros x Hx; cbn [In] in Hx;
         repeat (destruct Hx as [<- | Hx]; [cbn [In SINGLES]; tauto|]); destruct Hx|]).
      destruct H.
  Qed.
End Machine.
