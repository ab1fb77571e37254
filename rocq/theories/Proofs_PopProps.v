(** Lemmas that put the component results in the form of the properties. *)

From Coq Require Import Reals String List Bool Arith Lia Lra.
From Coquelicot Require Import Coquelicot.
From Verif Require Import Model_Num RealAux Model_Base Model_Kernels Model_Utils Model_PopBase Model_PopData
  Model_PopParams Model_PopKernels Proofs_Kernels Spec_Utils Spec_Pop Spec_TruncNorm Proofs_PopBase Proofs_PopParams
  Proofs_PopAll Proofs_PopInterp Proofs_PopKernels Proofs_PopCov Proofs_PopTpeak.
Import ListNotations.
Local Open Scope R_scope.
Local Open Scope string_scope.

(** ** Late index *)

Lemma late_bimod_partial p : legal_for LATE_INDEX_BIMOD p ->
  exists u p', get_unbounded_late_index_params p = Ok u /\ get_bounded_late_index_params u = Ok p' /\
    legal_for LATE_INDEX_BIMOD p' /\
    forall q v, In q late_quantities -> has p (q ++ "_beta") v -> has p' (q ++ "_beta") v /\ has p' (q ++ "_alpha") v.
Proof.
  intros [Hs Hb]. destruct (late_split p Hs) as (pa & pb & -> & Ha & Hbb).
  apply (late_legal_split pa pb Ha Hbb) in Hb. destruct Hb as [_ Lb].
  destruct (late_roundtrip pa pb Ha Hbb Lb) as (u & E1 & Su & E2).
  exists u, (combine (c_names LA) (values pb) ++ pb)%list. refine (conj E1 (conj E2 (conj _ _))).
  - destruct (late_usplit u Su) as (ua & ub & -> & Hua & Hub).
    destruct (late_uroundtrip ua ub Hua Hub) as (p' & E & L & _).
    assert (p' = (combine (c_names LA) (values pb) ++ pb)%list) as <- by (rewrite E in E2; now injection E2). exact L.
  - intros q v Hq Hv.
    change (c_names LA) with ["late_index_x0_alpha"; "late_index_ylo_alpha"; "late_index_yhi_alpha"] in *.
    change (c_names LB) with ["late_index_x0_beta"; "late_index_ylo_beta"; "late_index_yhi_beta"] in *.
    destruct (shaped3 _ _ _ pa Ha) as (a1 & a2 & a3 & ->). destruct (shaped3 _ _ _ pb Hbb) as (b1 & b2 & b3 & ->).
    unfold has in *. cbn [values map snd combine app In] in *.
    destruct Hq as [<-|[<-|[<-|[]]]]; cbn [append] in *;
    repeat (destruct Hv as [Hv|Hv]; [try discriminate Hv; injection Hv as <-; tauto|]); contradiction.
Qed.

Ltac pick_disjunct := first [left; reflexivity | right; pick_disjunct].

Lemma late_bimod_iff p : legal_for LATE_INDEX_BIMOD p ->
  exists u p', get_unbounded_late_index_params p = Ok u /\ unbounded_for LATE_INDEX_BIMOD u /\
    get_bounded_late_index_params u = Ok p' /\ legal_for LATE_INDEX_BIMOD p' /\
    (forall q v, In q late_quantities -> has p (q ++ "_beta") v -> has p' (q ++ "_beta") v /\ has p' (q ++ "_alpha") v) /\
    (p' = p <-> forall q v, In q late_quantities -> has p (q ++ "_beta") v -> has p (q ++ "_alpha") v).
Proof.
  intros L. destruct (late_bimod_partial p L) as (u0 & p0 & E1 & E2 & L' & HV).
  destruct L as [Hs Hb]. destruct (late_split p Hs) as (pa & pb & -> & Ha & Hbb).
  apply (late_legal_split pa pb Ha Hbb) in Hb. destruct Hb as [_ Lb].
  destruct (late_roundtrip pa pb Ha Hbb Lb) as (u & F1 & Su & F2).
  assert (u0 = u) as -> by (rewrite F1 in E1; now injection E1).
  assert (p0 = (combine (c_names LA) (values pb) ++ pb)%list) as -> by (rewrite F2 in E2; now injection E2).
  exists u, (combine (c_names LA) (values pb) ++ pb)%list.
  refine (conj F1 (conj Su (conj F2 (conj L' (conj HV _))))).
  split.
  - intros E q v Hq Hv. rewrite <- E. now apply HV.
  - intros H. clear HV L' E1 E2 F1 F2 Su Lb Hs.
    change (c_names LA) with ["late_index_x0_alpha"; "late_index_ylo_alpha"; "late_index_yhi_alpha"] in *.
    change (c_names LB) with ["late_index_x0_beta"; "late_index_ylo_beta"; "late_index_yhi_beta"] in *.
    destruct (shaped3 _ _ _ pa Ha) as (a1 & a2 & a3 & ->). destruct (shaped3 _ _ _ pb Hbb) as (b1 & b2 & b3 & ->).
    pose proof (H "late_index_x0" b1) as H1. pose proof (H "late_index_ylo" b2) as H2.
    pose proof (H "late_index_yhi" b3) as H3. clear H.
    unfold has, late_quantities in *. cbn [values map snd combine app In append] in *.
    assert (a1 = b1) as ->.
    { specialize (H1 ltac:(pick_disjunct) ltac:(pick_disjunct)). repeat (destruct H1 as [H1|H1]; [try discriminate H1; now injection H1|]); contradiction. }
    assert (a2 = b2) as ->.
    { specialize (H2 ltac:(pick_disjunct) ltac:(pick_disjunct)). repeat (destruct H2 as [H2|H2]; [try discriminate H2; now injection H2|]); contradiction. }
    assert (a3 = b3) as ->.
    { specialize (H3 ltac:(pick_disjunct) ltac:(pick_disjunct)). repeat (destruct H3 as [H3|H3]; [try discriminate H3; now injection H3|]); contradiction. }
    reflexivity.
Qed.

Lemma late_bimod_u_iff u : unbounded_for LATE_INDEX_BIMOD u ->
  exists p u', get_bounded_late_index_params u = Ok p /\ legal_for LATE_INDEX_BIMOD p /\
    get_unbounded_late_index_params p = Ok u' /\
    (forall q v, In q late_quantities -> has u ("u_" ++ q ++ "_beta") v ->
       has u' ("u_" ++ q ++ "_beta") v /\ has u' ("u_" ++ q ++ "_alpha") v) /\
    (u' = u <-> forall q v, In q late_quantities -> has u ("u_" ++ q ++ "_beta") v -> has u ("u_" ++ q ++ "_alpha") v).
Proof.
  intros Su. destruct (late_usplit u Su) as (ua & ub & -> & Ha & Hb).
  destruct (late_uroundtrip ua ub Ha Hb) as (p & E & L & E').
  exists p, (combine (c_unames LA) (values ub) ++ ub)%list.
  refine (conj E (conj L (conj E' _))).
  clear E E' L Su p.
  change (c_unames LA) with ["u_late_index_x0_alpha"; "u_late_index_ylo_alpha"; "u_late_index_yhi_alpha"] in *.
  change (c_unames LB) with ["u_late_index_x0_beta"; "u_late_index_ylo_beta"; "u_late_index_yhi_beta"] in *.
  destruct (shaped3 _ _ _ ua Ha) as (a1 & a2 & a3 & ->). destruct (shaped3 _ _ _ ub Hb) as (b1 & b2 & b3 & ->).
  assert (HV : forall q v, In q late_quantities ->
    has ([("u_late_index_x0_alpha", a1); ("u_late_index_ylo_alpha", a2); ("u_late_index_yhi_alpha", a3)] ++
         [("u_late_index_x0_beta", b1); ("u_late_index_ylo_beta", b2); ("u_late_index_yhi_beta", b3)])%list ("u_" ++ q ++ "_beta") v ->
    let r := [("u_late_index_x0_alpha", b1); ("u_late_index_ylo_alpha", b2); ("u_late_index_yhi_alpha", b3);
         ("u_late_index_x0_beta", b1); ("u_late_index_ylo_beta", b2); ("u_late_index_yhi_beta", b3)] in
    has r ("u_" ++ q ++ "_beta") v /\ has r ("u_" ++ q ++ "_alpha") v).
  { intros q v Hq Hv. unfold has in *. cbn [app In] in *.
    destruct Hq as [<-|[<-|[<-|[]]]]; cbn [append] in *;
    repeat (destruct Hv as [Hv|Hv]; [try discriminate Hv; injection Hv as <-; tauto|]); contradiction. }
  cbn [values map snd combine app] in *. split; [exact HV|]. split.
  - intros E q v Hq Hv. rewrite <- E. now apply HV.
  - intros H. clear HV Ha Hb.
    pose proof (H "late_index_x0" b1) as H1. pose proof (H "late_index_ylo" b2) as H2.
    pose proof (H "late_index_yhi" b3) as H3. clear H.
    unfold has, late_quantities in *. cbn [In append] in *.
    assert (a1 = b1) as ->.
    { specialize (H1 ltac:(pick_disjunct) ltac:(pick_disjunct)). repeat (destruct H1 as [H1|H1]; [try discriminate H1; now injection H1|]); contradiction. }
    assert (a2 = b2) as ->.
    { specialize (H2 ltac:(pick_disjunct) ltac:(pick_disjunct)). repeat (destruct H2 as [H2|H2]; [try discriminate H2; now injection H2|]); contradiction. }
    assert (a3 = b3) as ->.
    { specialize (H3 ltac:(pick_disjunct) ltac:(pick_disjunct)). repeat (destruct H3 as [H3|H3]; [try discriminate H3; now injection H3|]); contradiction. }
    reflexivity.
Qed.

Lemma late_bimod_refuted : exists p, legal_for LATE_INDEX_BIMOD p /\
  exists u p', get_unbounded_late_index_params p = Ok u /\ get_bounded_late_index_params u = Ok p' /\ p' <> p.
Proof.
  set (p := [("late_index_x0_alpha", 12); ("late_index_ylo_alpha", 11/100); ("late_index_yhi_alpha", 11/100);
             ("late_index_x0_beta", 11567/1000); ("late_index_ylo_beta", 11/100); ("late_index_yhi_beta", 11/100)] : rec R).
  assert (L : legal_for LATE_INDEX_BIMOD p).
  { split; [reflexivity|].
    change (c_bdict LATE_INDEX_BIMOD) with (c_bdict LA ++ c_bdict LB)%list. intros k lo hi H.
    unfold LA, LB, LATE_INDEX_ALPHA, LATE_INDEX_BETA, c_bdict in H. cbn [app In] in H.
    repeat (destruct H as [H|H]; [injection H as <- <- <-; eexists; split; [unfold has, p; cbn [In]; tauto|lra]|]).
    contradiction. }
  exists p. split; [exact L|]. destruct (late_bimod_partial p L) as (u & p' & E1 & E2 & [Sp' _] & H).
  exists u, p'. refine (conj E1 (conj E2 _)). intros ->.
  destruct (H "late_index_x0" (11567/1000)) as [_ Ha]; [cbn; tauto|unfold has, p; cbn [In append]; tauto|].
  unfold has, p in Ha. cbn [In append] in Ha.
  repeat (destruct Ha as [Ha|Ha]; [try discriminate Ha; injection Ha as Ha; lra|]). contradiction.
Qed.

(** ** Full parameter set *)

Lemma pop_round_trip_full p : legal_pop p ->
  exists u p', get_diffmahpop_u_params_from_params p = Ok u /\ unbounded_pop u /\
    get_diffmahpop_params_from_u_params u = Ok p' /\ legal_pop p' /\
    (forall k v, NOT_ALPHA k -> has p k v -> has p' k v) /\
    (forall q v, In q late_quantities -> has p (q ++ "_beta") v -> has p' (q ++ "_alpha") v) /\
    (p' = p <-> forall q v, In q late_quantities -> has p (q ++ "_beta") v -> has p (q ++ "_alpha") v).
Proof.
  intros L. pose proof (legal_pop_nodup p L) as Hnd.
  destruct (pop_round_trip p L) as (pre & pa & pb & post & u & -> & Ha & Hb & _ & _ & E1 & Su & E2).
  eexists u, _. refine (conj E1 (conj (proj2 (unbounded_pop_shaped u) Su) (conj E2 (conj _ _)))).
  - destruct (pop_u_round_trip u Su) as (pre' & ua & ub & post' & p' & _ & _ & _ & E & L' & _).
    rewrite E2 in E. apply Ok_inj in E. rewrite E. exact L'.
  - exact (alpha_replaced pre pa pb post Ha Hb Hnd).
Qed.

Lemma pop_round_trip_fields p : legal_pop p ->
  exists u p', get_diffmahpop_u_params_from_params p = Ok u /\ unbounded_pop u /\
    get_diffmahpop_params_from_u_params u = Ok p' /\ legal_pop p' /\
    (forall k v, (forall q, In q late_quantities -> k <> q ++ "_alpha") -> has p k v -> has p' k v) /\
    (forall q v, In q late_quantities -> has p (q ++ "_beta") v -> has p' (q ++ "_alpha") v).
Proof.
  intros L. destruct (pop_round_trip_full p L) as (u & p' & H1 & H2 & H3 & H4 & H5 & H6 & _).
  exists u, p'. exact (conj H1 (conj H2 (conj H3 (conj H4 (conj H5 H6))))).
Qed.

Lemma pop_round_trip_iff p : legal_pop p ->
  (exists u, get_diffmahpop_u_params_from_params p = Ok u /\ get_diffmahpop_params_from_u_params u = Ok p) <->
  (forall q v, In q late_quantities -> has p (q ++ "_beta") v -> has p (q ++ "_alpha") v).
Proof.
  intros L. destruct (pop_round_trip_full p L) as (u & p' & H1 & H2 & H3 & H4 & _ & _ & H5).
  rewrite <- H5. split.
  - intros (u0 & E1 & E2). rewrite H1 in E1. apply Ok_inj in E1. subst u0. rewrite H3 in E2. now apply Ok_inj in E2.
  - intros ->. exists u. split; assumption.
Qed.

Lemma pop_round_trip_refuted : exists p, legal_pop p /\
  exists u p', get_diffmahpop_u_params_from_params p = Ok u /\
    get_diffmahpop_params_from_u_params u = Ok p' /\ p' <> p.
Proof.
  exists ALT_PDICT. split; [exact alt_legal|].
  destruct (pop_round_trip_full _ alt_legal) as (u & p' & H1 & _ & H3 & _ & _ & _ & H5).
  exists u, p'. refine (conj H1 (conj H3 _)). intros E. pose proof (proj1 H5 E) as H.
  destruct alt_values as [Ha Hb].
  specialize (H "late_index_x0" (11567/1000) (or_introl eq_refl) Hb).
  pose proof (has_unique ALT_PDICT "late_index_x0_alpha" _ _ (legal_pop_nodup _ alt_legal) Ha H). lra.
Qed.

Lemma pop_u_round_trip_fields u : unbounded_pop u ->
  exists p u', get_diffmahpop_params_from_u_params u = Ok p /\ legal_pop p /\
    get_diffmahpop_u_params_from_params p = Ok u' /\
    (forall k v, (forall q, In q late_quantities -> k <> "u_" ++ q ++ "_alpha") -> has u k v -> has u' k v) /\
    (forall q v, In q late_quantities -> has u ("u_" ++ q ++ "_beta") v -> has u' ("u_" ++ q ++ "_alpha") v).
Proof.
  intros Hu. apply unbounded_pop_shaped in Hu.
  assert (Hnd : NoDup (fields u)) by (change (fields u) with (map fst u); rewrite Hu; exact pop_unames_nodup).
  destruct (pop_u_round_trip u Hu) as (pre & ua & ub & post & p & -> & Ha & Hb & E & L & E2).
  eexists p, _. refine (conj E (conj L (conj E2 _))).
  exact (ualpha_replaced pre ua ub post Ha Hb Hnd).
Qed.

(** ** Partition *)

Lemma partition (p : rec R) : shaped (map fst pop_bounds) p ->
  exists ps, get_component_model_params p = Ok ps /\ concat ps = p /\
    Forall2 (fun c q => shaped (map fst (c_pdict c)) q) pop_components ps /\
    (forall k v, has p k v -> exists! i, exists q, nth_error ps i = Some q /\ has q k v).
Proof.
  intros H. assert (H' : shaped POP_NAMES p) by (unfold shaped in *; rewrite H; exact pop_bounds_names).
  destruct (component_params_slices p H') as (ps & E & C & F). exists ps.
  refine (conj E (conj C (conj F _))). intros k v Hk.
  apply route_unique with p; try assumption. change (fields p) with (map fst p). rewrite H'. exact pop_names_nodup.
Qed.

Lemma partition_u (u : rec R) : unbounded_pop u ->
  exists us, get_component_model_u_params u = Ok us /\ concat us = u /\
    Forall2 (fun c q => unbounded_for c q) pop_components us /\
    (forall k v, has u k v -> exists! i, exists q, nth_error us i = Some q /\ has q k v).
Proof.
  intros H. apply unbounded_pop_shaped in H.
  destruct (component_u_params_slices u H) as (us & E & C & F). exists us.
  refine (conj E (conj C (conj F _))). intros k v Hk.
  apply route_unique with u; try assumption. change (fields u) with (map fst u). rewrite H. exact pop_unames_nodup.
Qed.

(** ** Covariance *)

Lemma logistic_exp x : logistic x = / (1 + exp (- x)).
Proof. reflexivity. Qed.

Lemma getattr_has {A} (p : rec A) k v : getattr p k = Ok v -> has p k v.
Proof.
  induction p as [|[k' v'] p IH]; cbn; [discriminate|]. destruct (String.eqb_spec k' k) as [->|]; intros E.
  - injection E as ->. now left.
  - right. now apply IH.
Qed.

Lemma cov_std_formula (p : rec R) lgm q s : cov_std p lgm q = Ok s ->
  exists x0 lo hi, has p ("cov_lgm_x0_" ++ q) x0 /\ has p ("std_u_" ++ q ++ "_ylo") lo /\ has p ("std_u_" ++ q ++ "_yhi") hi /\
    s = lo + (hi - lo) / (1 + exp (- (2 * (lgm - x0)))).
Proof.
  unfold cov_std. destruct (getattr p _) as [x0|] eqn:E1; [|discriminate].
  cbn [bind]. destruct (getattr p ("std_u_" ++ q ++ "_ylo")) as [lo|] eqn:E2; [|discriminate].
  cbn [bind]. destruct (getattr p ("std_u_" ++ q ++ "_yhi")) as [hi|] eqn:E3; [|discriminate].
  cbn [bind]. intros E. apply Ok_inj in E. subst s. exists x0, lo, hi.
  refine (conj (getattr_has _ _ _ E1) (conj (getattr_has _ _ _ E2) (conj (getattr_has _ _ _ E3) _))).
  rewrite sigmoid_R. reflexivity.
Qed.

Lemma cov_provides p : legal_pop p \/ legal_for COV p -> provides COV p /\ filter is_rho (fields p) = RHO_NAMES.
Proof.
  intros [H|H].
  - split; [apply pop_provides_part; [in_list|exact H]|now apply pop_rho].
  - split; [apply legal_provides; [apply wfc_COV|exact H]|now apply cov_rho].
Qed.

Lemma covariance p lgm : legal_pop p \/ legal_for COV p ->
  exists M s, get_diffmahpop_cov p lgm = Ok (4%nat, M) /\
    (forall i j, (i < 4)%nat -> (j < 4)%nat -> M i j = M j i) /\
    (forall i q, nth_error cov_quantities i = Some q -> exists x0 lo hi,
       has p ("cov_lgm_x0_" ++ q) x0 /\ has p ("std_u_" ++ q ++ "_ylo") lo /\ has p ("std_u_" ++ q ++ "_yhi") hi /\
       s i = lo + (hi - lo) / (1 + exp (- (2 * (lgm - x0)))) /\ 1/100 < s i < 100) /\
    (forall i, (i < 4)%nat -> M i i = s i * s i) /\
    (forall i j q r, (j < i < 4)%nat -> nth_error cov_quantities i = Some q -> nth_error cov_quantities j = Some r ->
       exists rho, has p ("rho_" ++ q ++ "_" ++ r) rho /\ M i j = rho * s i * s j) /\
    posdef 4 M.
Proof.
  intros H. destruct (cov_provides p H) as [Hp Hr].
  destruct (cov_eval p lgm Hp Hr) as (M & s0 & s1 & s2 & s3 & r0 & r1 & r2 & r3 & r4 & r5 & E & PD & HM & E0 & E1 & E2 & E3 & Hs & H0 & H1 & H2 & H3 & H4 & H5).
  exists M, (fun i => nth i [s0; s1; s2; s3] 0). refine (conj E (conj _ (conj _ (conj _ (conj _ PD))))).
  - intros i j Hi Hj. rewrite !HM by assumption.
    assert (corr4 [r0; r1; r2; r3; r4; r5] i j = corr4 [r0; r1; r2; r3; r4; r5] j i) as ->; [|ring].
    destruct i as [|[|[|[|]]]]; destruct j as [|[|[|[|]]]]; try lia; reflexivity.
  - inversion_clear Hs as [|? ? B0 Hs1]. inversion_clear Hs1 as [|? ? B1 Hs2]. inversion_clear Hs2 as [|? ? B2 Hs3].
    inversion_clear Hs3 as [|? ? B3 _].
    assert (G : forall q s, cov_std p lgm q = Ok s -> 1/100 < s < 100 -> exists x0 lo hi,
       has p ("cov_lgm_x0_" ++ q) x0 /\ has p ("std_u_" ++ q ++ "_ylo") lo /\ has p ("std_u_" ++ q ++ "_yhi") hi /\
       s = lo + (hi - lo) / (1 + exp (- (2 * (lgm - x0)))) /\ 1/100 < s < 100).
    { intros q s Eq B. destruct (cov_std_formula p lgm q s Eq) as (x0 & lo & hi & Q1 & Q2 & Q3 & Q4).
      exists x0, lo, hi. exact (conj Q1 (conj Q2 (conj Q3 (conj Q4 B)))). }
    intros i q Hq. destruct i as [|[|[|[|]]]]; cbn [nth_error cov_quantities] in Hq; try (destruct n; discriminate Hq);
      injection Hq as <-; cbn [nth]; now apply G.
  - intros i Hi. rewrite HM by assumption. destruct i as [|[|[|[|]]]]; try lia; cbn [nth corr4]; ring.
  - intros i j q r Hij Hq Hr'. rewrite HM by lia.
    destruct i as [|[|[|[|]]]]; destruct j as [|[|[|[|]]]]; try lia; cbn [nth_error cov_quantities] in Hq, Hr';
      injection Hq as <-; injection Hr' as <-; cbn [append nth corr4];
      eexists; (split; [eassumption|ring]).
Qed.

Lemma covariance_u u lgm : unbounded_for COV u ->
  exists p M, get_bounded_params COV u = Ok p /\ get_diffmahpop_cov p lgm = Ok (4%nat, M) /\
    (forall i j, (i < 4)%nat -> (j < 4)%nat -> M i j = M j i) /\ posdef 4 M.
Proof.
  intros Hu. destruct (acts_bijection COV _ _ wfc_COV (acts_single COV wfc_COV)) as [B _].
  destruct (B u Hu) as (p & E & L & _).
  destruct (covariance p lgm (or_intror L)) as (M & s & EM & Sym & _ & _ & _ & PD).
  exists p, M. exact (conj E (conj EM (conj Sym PD))).
Qed.

(** ** Components of a legal population *)

Lemma pop_components_provided c p : In c pop_components -> legal_pop p -> provides c p.
Proof.
  intros Hc L. apply pop_provides; [|exact L]. intros x Hx. rewrite pop_bounds_concat. apply in_flat_map.
  exists c. split; [exact Hc|exact Hx].
Qed.

Lemma component_defaults c : wfc c -> in_bounds (c_bdict c) (c_pdict c) -> provides c (c_pdict c).
Proof. intros [H _] B. exact (conj H B). Qed.

Ltac bounds_of c :=
  intros k lo hi H; unfold c, c_bdict in H; cbn [In] in H;
  repeat (destruct H as [H|H]; [injection H as <- <- <-; eexists; split; [unfold has, c, c_pdict; cbn [In]; tauto|lra]|]);
  contradiction.

Lemma ftpt0_defaults : provides FTPT0 (c_pdict FTPT0).
Proof. apply component_defaults; [apply wfc_FTPT0|bounds_of FTPT0]. Qed.

Lemma tpcens_defaults : provides TPCENS (c_pdict TPCENS).
Proof. apply component_defaults; [apply wfc_TPCENS|bounds_of TPCENS]. Qed.

Lemma tpcens_legal : legal_for TPCENS (c_pdict TPCENS).
Proof. split; [reflexivity|bounds_of TPCENS]. Qed.

(** ** Peak times *)

Lemma sat_tpeak_inverts p lgm t : provides TP_SATS p -> 0 <= t ->
  exists loc scale, get_utp_loc p lgm t = Ok loc /\ get_utp_scale p lgm t = Ok scale /\
    15/100 < loc < 95/100 /\ 1/10 < scale < 6/10 /\
    forall x, 1001/10000 <= x <= 9999/10000 -> loc - 4 * scale <= x <= loc + 4 * scale ->
      exists tp, tpeak_sat_of_uran truncnorm_cdf_R p lgm t
          (truncnorm_cdf_R x ((1/10 - loc) / scale) ((1 - loc) / scale) loc scale) = Ok tp /\
        Rabs (tp - x * t) <= 19/1000 * t.
Proof.
  intros H Ht. destruct (sat_tpeak_eval p lgm t H) as (loc & scale & E1 & E2 & B1 & B2 & E).
  exists loc, scale. refine (conj E1 (conj E2 (conj B1 (conj B2 _)))). intros x Hx Hx'.
  rewrite E. eexists. split; [reflexivity|].
  rewrite <- trunc_params by lra.
  rewrite <- Rmult_minus_distr_r, Rabs_mult, (Rabs_right t) by lra. apply Rmult_le_compat_r; [exact Ht|].
  apply utp_sat_inverts; [lra|]. unfold XLO, XHI. split; [apply Rmax_lub|apply Rmin_glb]; lra.
Qed.

Lemma cen_scaled_cdf p lgm t t0 : provides TPCENS p -> 0 < t0 ->
  exists F, (forall tp, t_peak_cen_cdf_singlehalo_kern truncnorm_cdf_R p lgm t tp t0 = Ok (F tp)) /\
    (forall tp, tp <= t0 / 10 -> t0 * F tp = 0) /\
    (forall tp tp', tp <= tp' -> t0 * F tp <= t0 * F tp') /\
    (forall tp, t0 <= tp -> t0 * F tp = 1).
Proof.
  intros H Ht. destruct (cen_trunc_eval p lgm t t0 H) as (scale & B & _ & _ & E & _).
  eexists. split; [exact E|]. refine (conj _ (conj _ _)).
  - intros tp Htp. pose proof (cen_cdf_start p lgm t t0 tp H Ht Htp) as Q. rewrite E in Q. apply Ok_inj in Q.
    rewrite Q. ring.
  - intros tp tp' Htp. apply Rmult_le_compat_l; [lra|].
    exact (cen_cdf_mono p lgm t t0 tp tp' _ _ H Ht Htp (E tp) (E tp')).
  - intros tp Htp. pose proof (cen_cdf_end p lgm t t0 tp H Ht Htp) as Q. rewrite E in Q. apply Ok_inj in Q.
    rewrite Q. field. lra.
Qed.

Lemma cen_cdf_refuted : exists p lgm t t0, legal_for TPCENS p /\ 0 < t0 /\
  forall tp, t0 <= tp -> exists v, t_peak_cen_cdf_singlehalo_kern truncnorm_cdf_R p lgm t tp t0 = Ok v /\ v < 1/10.
Proof.
  exists (c_pdict TPCENS), 12, 10, (138/10). split; [exact tpcens_legal|]. split; [lra|]. intros tp Htp.
  eexists. split; [apply cen_cdf_end; [exact tpcens_defaults|lra|exact Htp]|lra].
Qed.

Lemma cen_pdf_one p lgm t t0 : provides TPCENS p -> 0 < t0 ->
  exists pdf, (forall s, t_peak_cen_pdf_singlehalo_kern truncnorm_pdf_R p lgm t s t0 = Ok (pdf s)) /\
    is_RInt pdf (t0 / 10) t0 1.
Proof.
  intros H Ht. destruct (cen_pdf_integral p lgm t t0 t0 H Ht ltac:(lra)) as (cdf & pdf & E & Ep & I).
  exists pdf. split; [exact Ep|]. rewrite (cen_cdf_end p lgm t t0 t0 H Ht (Rle_refl _)) in E. apply Ok_inj in E.
  subst cdf. replace 1 with (t0 * (1 / t0)) by (field; lra). exact I.
Qed.

(** ** Means *)

Lemma legal_means p lgm t tp a b : legal_pop p -> In (a, b) two_populations ->
  exists e l c, pred_early_index_kern a p lgm t tp = Ok e /\ pred_late_index_kern a p lgm = Ok l /\
    pred_logtc_kern b p lgm t tp = Ok c /\
    1/10 < l < 2/10 /\ 5/10 < e < 4 /\ l < e /\ -1 < c < 1.
Proof.
  intros L H.
  assert (Q : exists ce cl cc, (In (a, ce) [("_alpha", EARLY_INDEX_ALPHA); ("_beta", EARLY_INDEX_BETA); ("", EARLY_INDEX_POP)] /\
     In (a, cl) [("_alpha", LATE_INDEX_ALPHA); ("_beta", LATE_INDEX_BETA)] /\
     In (b, cc) [("_early", LOGTC_EARLY); ("_late", LOGTC_LATE)]) /\ provides ce p /\ provides cl p /\ provides cc p).
  { destruct H as [[= <- <-]|[[= <- <-]|[]]].
    - exists EARLY_INDEX_ALPHA, LATE_INDEX_ALPHA, LOGTC_EARLY. split; [refine (conj _ (conj _ _)); left; reflexivity|].
      refine (conj _ (conj _ _)); (apply pop_provides_part; [in_list|exact L]).
    - exists EARLY_INDEX_BETA, LATE_INDEX_BETA, LOGTC_LATE. split; [refine (conj _ (conj _ _)); right; left; reflexivity|].
      refine (conj _ (conj _ _)); (apply pop_provides_part; [in_list|exact L]). }
  destruct Q as (ce & cl & cc & (I1 & I2 & I3) & P1 & P2 & P3).
  destruct (early_index_range a ce p lgm t tp I1 P1) as (e & E1 & B1).
  destruct (late_index_range a cl p lgm I2 P2) as (l & E2 & B2).
  destruct (logtc_range b cc p lgm t tp I3 P3) as (c & E3 & B3).
  exists e, l, c. refine (conj E1 (conj E2 (conj E3 _))). repeat split; lra.
Qed.

Lemma logtc_monotone p lgm lgm' t tp b v v' : legal_pop p -> In b ["_early"; "_late"] -> lgm <= lgm' ->
  pred_logtc_kern b p lgm t tp = Ok v -> pred_logtc_kern b p lgm' t tp = Ok v' -> v <= v'.
Proof.
  intros L [<-|[<-|[]]].
  - apply (logtc_mono "_early" LOGTC_EARLY); [in_list|apply pop_provides_part; [in_list|exact L]].
  - apply (logtc_mono "_late" LOGTC_LATE); [in_list|apply pop_provides_part; [in_list|exact L]].
Qed.

Lemma four_pop p s : legal_pop p -> In s four_populations ->
  exists c0 c1, In (s, c0, c1) m0_populations /\ provides c0 p /\ provides c1 p.
Proof.
  intros L [<-|[<-|[<-|[<-|[]]]]]; do 2 eexists; (split; [in_list|split; (apply pop_provides_part; [in_list|exact L])]).
Qed.

Lemma logm0_above p lgm t tp s : legal_pop p -> In s four_populations -> t <= 15 -> 12 <= lgm ->
  exists v, pred_logm0_kern s p lgm t tp = Ok v /\ lgm + 1/100 < v.
Proof.
  intros L H Ht Hl. destruct (four_pop p s L H) as (c0 & c1 & I & P0 & P1).
  destruct (logm0_gain s c0 c1 p lgm t tp I P0 P1) as (v & E & G & _). exists v. split; [exact E|now apply G].
Qed.

Lemma logm0_incr p lgm lgm' t tp s : legal_pop p -> In s four_populations -> lgm < lgm' ->
  exists v v', pred_logm0_kern s p lgm t tp = Ok v /\ pred_logm0_kern s p lgm' t tp = Ok v' /\ v < v'.
Proof.
  intros L H Hl. destruct (four_pop p s L H) as (c0 & c1 & I & P0 & P1).
  destruct (logm0_gain s c0 c1 p lgm t tp I P0 P1) as (v & E & _).
  destruct (logm0_gain s c0 c1 p lgm' t tp I P0 P1) as (v' & E' & _).
  exists v, v'. refine (conj E (conj E' _)). exact (logm0_increasing s c0 c1 p lgm lgm' t tp v v' I P0 P1 Hl E E').
Qed.
