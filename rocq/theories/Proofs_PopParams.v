(** The bimod modules and bimod_censat_params.py. *)

From Coq Require Import Reals String List Bool Arith Lia Lra.
From Verif Require Import Model_Num Model_Base Model_Kernels Model_PopBase Model_PopData
  Model_PopParams Proofs_Kernels Spec_Pop Proofs_PopBase.
Import ListNotations.
Local Open Scope R_scope.
Local Open Scope string_scope.

(** ** Checking components *)

Fixpoint nodupb (l : list string) : bool :=
  match l with
  | [] => true
  | x :: l' => negb (existsb (String.eqb x) l') && nodupb l'
  end.

Lemma nodupb_ok l : nodupb l = true -> NoDup l.
Proof.
  induction l as [|x l IH]; cbn; [constructor|]. intros H. apply andb_prop in H as [H1 H2].
  constructor; [|now apply IH]. intros Hin. apply negb_true_iff in H1.
  assert (existsb (String.eqb x) l = true).
  { apply existsb_exists. exists x. split; [exact Hin|apply String.eqb_refl]. }
  congruence.
Qed.

Ltac check_names := apply nodupb_ok; vm_compute; reflexivity.
Ltac check_wfc :=
  refine (conj _ (conj _ _));
  [check_names | vm_compute; reflexivity | cbn; repeat constructor; unfold proper; cbn; lra].

Lemma wfc_TPCENS_FLEX : wfc TPCENS_FLEX. Proof. check_wfc. Qed.
Lemma wfc_TP_SATS : wfc TP_SATS. Proof. check_wfc. Qed.
Lemma wfc_UTP : wfc UTP. Proof. check_wfc. Qed.
Lemma wfc_TPCENS : wfc TPCENS. Proof. check_wfc. Qed.
Lemma wfc_LGM0_C0_EARLY : wfc LGM0_C0_EARLY. Proof. check_wfc. Qed.
Lemma wfc_LGM0_C1_EARLY : wfc LGM0_C1_EARLY. Proof. check_wfc. Qed.
Lemma wfc_LGM0_C0_LATE : wfc LGM0_C0_LATE. Proof. check_wfc. Qed.
Lemma wfc_LGM0_C1_LATE : wfc LGM0_C1_LATE. Proof. check_wfc. Qed.
Lemma wfc_LGM0_C0_EARLY_SATS : wfc LGM0_C0_EARLY_SATS. Proof. check_wfc. Qed.
Lemma wfc_LGM0_C1_EARLY_SATS : wfc LGM0_C1_EARLY_SATS. Proof. check_wfc. Qed.
Lemma wfc_LGM0_C0_LATE_SATS : wfc LGM0_C0_LATE_SATS. Proof. check_wfc. Qed.
Lemma wfc_LGM0_C1_LATE_SATS : wfc LGM0_C1_LATE_SATS. Proof. check_wfc. Qed.
Lemma wfc_LOGTC_EARLY : wfc LOGTC_EARLY. Proof. check_wfc. Qed.
Lemma wfc_LOGTC_LATE : wfc LOGTC_LATE. Proof. check_wfc. Qed.
Lemma wfc_EARLY_INDEX_ALPHA : wfc EARLY_INDEX_ALPHA. Proof. check_wfc. Qed.
Lemma wfc_EARLY_INDEX_BETA : wfc EARLY_INDEX_BETA. Proof. check_wfc. Qed.
Lemma wfc_EARLY_INDEX_POP : wfc EARLY_INDEX_POP. Proof. check_wfc. Qed.
Lemma wfc_LATE_INDEX_ALPHA : wfc LATE_INDEX_ALPHA. Proof. check_wfc. Qed.
Lemma wfc_LATE_INDEX_BETA : wfc LATE_INDEX_BETA. Proof. check_wfc. Qed.
Lemma wfc_FEC : wfc FEC. Proof. check_wfc. Qed.
Lemma wfc_FTPT0 : wfc FTPT0. Proof. check_wfc. Qed.
Lemma wfc_COV : wfc COV. Proof. check_wfc. Qed.

(** ** Dictionaries *)

Lemma dict_set_fresh {B} (d : list (string * B)) k v : ~ In k (map fst d) ->
  dict_set d k v = (d ++ [(k, v)])%list.
Proof.
  intros H. unfold dict_set. destruct (has_key d k) eqn:E; [|reflexivity].
  exfalso. apply H. apply (has_key_spec d k). exact E.
Qed.

Lemma dict_update_fresh {B} (d e : list (string * B)) : NoDup (map fst (d ++ e)%list) ->
  dict_update d e = (d ++ e)%list.
Proof.
  unfold dict_update. revert d. induction e as [|[k v] e IH]; intros d H; cbn.
  - now rewrite app_nil_r.
  - rewrite dict_set_fresh.
    + rewrite IH; rewrite <- app_assoc; [reflexivity|exact H].
    + rewrite map_app in H. cbn in H. apply NoDup_remove_2 in H.
      intros Hin. apply H. apply in_or_app. now left.
Qed.

Lemma c_merge_names c d : NoDup (c_names c ++ c_names d)%list ->
  map fst (c_bdict c) = c_names c -> map fst (c_bdict d) = c_names d ->
  c_merge c d = mkComponent (c_pdict c ++ c_pdict d)%list (c_bdict c ++ c_bdict d)%list.
Proof.
  intros Hnd Hc Hd. unfold c_merge. f_equal; apply dict_update_fresh; rewrite map_app.
  - exact Hnd.
  - now rewrite Hc, Hd.
Qed.

(** ** Two parts *)

Lemma bmap_app us1 us2 bs1 bs2 : List.length us1 = List.length bs1 ->
  bmap (us1 ++ us2) (bs1 ++ bs2) = (bmap us1 bs1 ++ bmap us2 bs2)%list.
Proof.
  unfold bmap. revert us1. induction bs1 as [|b bs1 IH]; intros [|u us1]; cbn; try discriminate; [reflexivity|].
  intros H. f_equal. apply IH. lia.
Qed.

Lemma umap_app us1 us2 bs1 bs2 : List.length us1 = List.length bs1 ->
  umap (us1 ++ us2) (bs1 ++ bs2) = (umap us1 bs1 ++ umap us2 bs2)%list.
Proof.
  unfold umap. revert us1. induction bs1 as [|b bs1 IH]; intros [|u us1]; cbn; try discriminate; [reflexivity|].
  intros H. f_equal. apply IH. lia.
Qed.

Lemma combine_app {B C} (a1 a2 : list B) (c1 c2 : list C) : List.length a1 = List.length c1 ->
  combine (a1 ++ a2) (c1 ++ c2) = (combine a1 c1 ++ combine a2 c2)%list.
Proof.
  revert c1. induction a1 as [|a a1 IH]; intros [|c c1]; cbn; try discriminate; [reflexivity|].
  intros H. f_equal. apply IH. lia.
Qed.

Lemma shaped_app {A} n1 n2 (p : rec A) : shaped (n1 ++ n2) p ->
  exists p1 p2, p = (p1 ++ p2)%list /\ shaped n1 p1 /\ shaped n2 p2.
Proof. intros H. apply map_eq_app in H as (p1 & p2 & E & H1 & H2). eauto. Qed.

Lemma select_middle {A} names (pre q post : rec A) : NoDup (fields (pre ++ q ++ post)%list) ->
  shaped names q -> select names (pre ++ q ++ post)%list = Ok q.
Proof.
  intros Hnd Hs. unfold select. unfold shaped in Hs. rewrite <- Hs.
  change (map fst q) with (fields q).
  rewrite (getattrs_middle pre q post Hnd). apply make_self.
Qed.

Lemma part_bounded_middle c pre q post : wfc c -> NoDup (fields (pre ++ q ++ post)%list) ->
  shaped (c_unames c) q ->
  part_bounded c (pre ++ q ++ post)%list = Ok (combine (c_names c) (bmap (values q) (bnds c))).
Proof.
  intros Hw Hnd Hs. unfold part_bounded. rewrite (select_middle _ pre q post Hnd Hs). cbn [bind].
  now apply acts_single.
Qed.

Lemma part_unbounded_middle c pre q post : wfc c -> NoDup (fields (pre ++ q ++ post)%list) ->
  shaped (c_names c) q ->
  part_unbounded c (pre ++ q ++ post)%list = Ok (combine (c_unames c) (umap (values q) (bnds c))).
Proof.
  intros Hw Hnd Hs. unfold part_unbounded. rewrite (select_middle _ pre q post Hnd Hs). cbn [bind].
  now apply acts_single.
Qed.

(** [whole] is the concatenation of parts. *)
Definition concat_of (whole : component) (parts : list component) : Prop :=
  c_pdict whole = flat_map c_pdict parts /\ c_bdict whole = flat_map c_bdict parts.

Lemma concat_names whole parts : concat_of whole parts ->
  c_names whole = flat_map c_names parts /\ c_unames whole = flat_map c_unames parts /\
  bnds whole = flat_map bnds parts.
Proof.
  intros [H1 H2]. unfold c_unames, c_names, bnds. rewrite H1, H2. clear.
  refine (conj _ (conj _ _)); induction parts as [|c parts IH]; cbn; try reflexivity;
    rewrite !map_app, IH; reflexivity.
Qed.

Lemma shaped_vlen c (q : rec R) : wfc c -> shaped (c_names c) q -> List.length (values q) = List.length (bnds c).
Proof. intros Hw Hs. rewrite (shaped_length (A:=R) _ _ Hs). now rewrite wfc_bnds_length. Qed.
Lemma shaped_uvlen c (q : rec R) : wfc c -> shaped (c_unames c) q -> List.length (values q) = List.length (bnds c).
Proof.
  intros Hw Hs. rewrite (shaped_length (A:=R) _ _ Hs). rewrite wfc_bnds_length by exact Hw. apply map_length.
Qed.

Lemma values_app {A} (p q : rec A) : values (p ++ q)%list = (values p ++ values q)%list.
Proof. apply map_app. Qed.

Lemma names_blen c us : wfc c -> List.length us = List.length (bnds c) ->
  List.length (c_names c) = List.length (bmap us (bnds c)).
Proof. intros Hw H. rewrite bmap_length by exact H. now rewrite wfc_bnds_length. Qed.
Lemma unames_ulen c us : wfc c -> List.length us = List.length (bnds c) ->
  List.length (c_unames c) = List.length (umap us (bnds c)).
Proof.
  intros Hw H. rewrite umap_length by exact H. rewrite wfc_bnds_length by exact Hw. apply map_length.
Qed.

Lemma acts_pair whole c d : wfc whole -> wfc c -> wfc d -> concat_of whole [c; d] ->
  acts whole (get_bounded_pair whole c d) (get_unbounded_pair whole c d).
Proof.
  intros Hw Hc Hd Hcat. destruct (concat_names _ _ Hcat) as (En & Eu & Eb).
  cbn [flat_map] in En, Eu, Eb. rewrite app_nil_r in En, Eu, Eb. split.
  - intros u Hs. pose proof (wfc_unames_nodup _ Hw) as Hnd.
    rewrite <- Hs in Hnd. change (map fst u) with (fields u) in Hnd.
    rewrite Eu in Hs. apply shaped_app in Hs as (u1 & u2 & -> & H1 & H2).
    pose proof (shaped_uvlen _ _ Hc H1) as L1. pose proof (shaped_uvlen _ _ Hd H2) as L2.
    pose proof (names_blen _ _ Hc L1) as M1. pose proof (names_blen _ _ Hd L2) as M2.
    unfold get_bounded_pair.
    change (u1 ++ u2)%list with ([] ++ u1 ++ u2)%list at 1.
    rewrite (part_bounded_middle c [] u1 u2 Hc Hnd H1). cbn [bind].
    replace (part_bounded d (u1 ++ u2)%list) with (part_bounded d (u1 ++ u2 ++ [])%list) by now rewrite app_nil_r.
    rewrite (part_bounded_middle d u1 u2 [] Hd).
    2:{ now rewrite app_nil_r. } 2:{ exact H2. }
    cbn [bind]. rewrite !values_combine by assumption.
    rewrite make_ok.
    + do 2 f_equal. rewrite Eb, values_app, bmap_app by exact L1. reflexivity.
    + rewrite En, !app_length. lia.
  - intros p Hs. pose proof (proj1 Hw) as Hnd.
    rewrite <- Hs in Hnd. change (map fst p) with (fields p) in Hnd.
    rewrite En in Hs. apply shaped_app in Hs as (p1 & p2 & -> & H1 & H2).
    pose proof (shaped_vlen _ _ Hc H1) as L1. pose proof (shaped_vlen _ _ Hd H2) as L2.
    pose proof (unames_ulen _ _ Hc L1) as M1. pose proof (unames_ulen _ _ Hd L2) as M2.
    unfold get_unbounded_pair.
    change (p1 ++ p2)%list with ([] ++ p1 ++ p2)%list at 1.
    rewrite (part_unbounded_middle c [] p1 p2 Hc Hnd H1). cbn [bind].
    replace (part_unbounded d (p1 ++ p2)%list) with (part_unbounded d (p1 ++ p2 ++ [])%list) by now rewrite app_nil_r.
    rewrite (part_unbounded_middle d p1 p2 [] Hd).
    2:{ now rewrite app_nil_r. } 2:{ exact H2. }
    cbn [bind]. rewrite !values_combine by assumption.
    rewrite make_ok.
    + do 2 f_equal. rewrite Eb, values_app, umap_app by exact L1. reflexivity.
    + rewrite Eu, !app_length. lia.
Qed.

Lemma acts_quad whole c d e f : wfc whole -> wfc c -> wfc d -> wfc e -> wfc f ->
  concat_of whole [c; d; e; f] ->
  acts whole (get_bounded_quad whole c d e f) (get_unbounded_quad whole c d e f).
Proof.
  intros Hw Hc Hd He Hf Hcat. destruct (concat_names _ _ Hcat) as (En & Eu & Eb).
  cbn [flat_map] in En, Eu, Eb. rewrite app_nil_r in En, Eu, Eb. split.
  - intros u Hs. pose proof (wfc_unames_nodup _ Hw) as Hnd.
    rewrite <- Hs in Hnd. change (map fst u) with (fields u) in Hnd.
    rewrite Eu in Hs. apply shaped_app in Hs as (u1 & u' & -> & H1 & Hs).
    apply shaped_app in Hs as (u2 & u'' & -> & H2 & Hs).
    apply shaped_app in Hs as (u3 & u4 & -> & H3 & H4).
    pose proof (shaped_uvlen _ _ Hc H1) as L1. pose proof (shaped_uvlen _ _ Hd H2) as L2.
    pose proof (shaped_uvlen _ _ He H3) as L3. pose proof (shaped_uvlen _ _ Hf H4) as L4.
    pose proof (names_blen _ _ Hc L1) as M1. pose proof (names_blen _ _ Hd L2) as M2.
    pose proof (names_blen _ _ He L3) as M3. pose proof (names_blen _ _ Hf L4) as M4.
    unfold get_bounded_quad.
    change (u1 ++ u2 ++ u3 ++ u4)%list with ([] ++ u1 ++ u2 ++ u3 ++ u4)%list at 1.
    rewrite (part_bounded_middle c [] u1 (u2 ++ u3 ++ u4) Hc Hnd H1). cbn [bind].
    rewrite (part_bounded_middle d u1 u2 (u3 ++ u4) Hd Hnd H2). cbn [bind].
    replace (u1 ++ u2 ++ u3 ++ u4)%list with ((u1 ++ u2) ++ u3 ++ u4)%list in * by now rewrite <- app_assoc.
    rewrite (part_bounded_middle e (u1 ++ u2) u3 u4 He Hnd H3). cbn [bind].
    replace ((u1 ++ u2) ++ u3 ++ u4)%list with (((u1 ++ u2) ++ u3) ++ u4 ++ [])%list in * by now rewrite app_nil_r, <- app_assoc.
    rewrite (part_bounded_middle f ((u1 ++ u2) ++ u3) u4 [] Hf Hnd H4). cbn [bind].
    rewrite !values_combine by assumption.
    rewrite make_ok.
    + do 2 f_equal. rewrite Eb, app_nil_r, <- !app_assoc, !values_app. now rewrite !bmap_app by assumption.
    + rewrite En, !app_length. lia.
  - intros u Hs. pose proof (proj1 Hw) as Hnd.
    rewrite <- Hs in Hnd. change (map fst u) with (fields u) in Hnd.
    rewrite En in Hs. apply shaped_app in Hs as (u1 & u' & -> & H1 & Hs).
    apply shaped_app in Hs as (u2 & u'' & -> & H2 & Hs).
    apply shaped_app in Hs as (u3 & u4 & -> & H3 & H4).
    pose proof (shaped_vlen _ _ Hc H1) as L1. pose proof (shaped_vlen _ _ Hd H2) as L2.
    pose proof (shaped_vlen _ _ He H3) as L3. pose proof (shaped_vlen _ _ Hf H4) as L4.
    pose proof (unames_ulen _ _ Hc L1) as M1. pose proof (unames_ulen _ _ Hd L2) as M2.
    pose proof (unames_ulen _ _ He L3) as M3. pose proof (unames_ulen _ _ Hf L4) as M4.
    unfold get_unbounded_quad.
    change (u1 ++ u2 ++ u3 ++ u4)%list with ([] ++ u1 ++ u2 ++ u3 ++ u4)%list at 1.
    rewrite (part_unbounded_middle c [] u1 (u2 ++ u3 ++ u4) Hc Hnd H1). cbn [bind].
    rewrite (part_unbounded_middle d u1 u2 (u3 ++ u4) Hd Hnd H2). cbn [bind].
    replace (u1 ++ u2 ++ u3 ++ u4)%list with ((u1 ++ u2) ++ u3 ++ u4)%list in * by now rewrite <- app_assoc.
    rewrite (part_unbounded_middle e (u1 ++ u2) u3 u4 He Hnd H3). cbn [bind].
    replace ((u1 ++ u2) ++ u3 ++ u4)%list with (((u1 ++ u2) ++ u3) ++ u4 ++ [])%list in * by now rewrite app_nil_r, <- app_assoc.
    rewrite (part_unbounded_middle f ((u1 ++ u2) ++ u3) u4 [] Hf Hnd H4). cbn [bind].
    rewrite !values_combine by assumption.
    rewrite make_ok.
    + do 2 f_equal. rewrite Eb, app_nil_r, <- !app_assoc, !values_app. now rewrite !umap_app by assumption.
    + rewrite Eu, !app_length. lia.
Qed.

(** ** The merged components *)

Ltac check_cat := unfold concat_of; cbn [flat_map]; rewrite ?app_nil_r;
  repeat (rewrite c_merge_names; [|check_names|vm_compute; reflexivity|vm_compute; reflexivity]);
  cbn [c_pdict c_bdict]; rewrite <- ?app_assoc; split; reflexivity.

Lemma cat_LGM0_EARLY : concat_of LGM0_EARLY [LGM0_C0_EARLY; LGM0_C1_EARLY].
Proof. unfold LGM0_EARLY. check_cat. Qed.
Lemma cat_LGM0_LATE : concat_of LGM0_LATE [LGM0_C0_LATE; LGM0_C1_LATE].
Proof. unfold LGM0_LATE. check_cat. Qed.
Lemma cat_LGM0_EARLY_SATS : concat_of LGM0_EARLY_SATS [LGM0_C0_EARLY_SATS; LGM0_C1_EARLY_SATS].
Proof. unfold LGM0_EARLY_SATS. check_cat. Qed.
Lemma cat_LGM0_LATE_SATS : concat_of LGM0_LATE_SATS [LGM0_C0_LATE_SATS; LGM0_C1_LATE_SATS].
Proof. unfold LGM0_LATE_SATS. check_cat. Qed.
Lemma cat_LGM0_BIMOD : concat_of LGM0_BIMOD [LGM0_C0_EARLY; LGM0_C1_EARLY; LGM0_C0_LATE; LGM0_C1_LATE].
Proof. unfold LGM0_BIMOD, LGM0_EARLY, LGM0_LATE. check_cat. Qed.
Lemma cat_LGM0_BIMOD_SATS : concat_of LGM0_BIMOD_SATS
  [LGM0_C0_EARLY_SATS; LGM0_C1_EARLY_SATS; LGM0_C0_LATE_SATS; LGM0_C1_LATE_SATS].
Proof. unfold LGM0_BIMOD_SATS, LGM0_EARLY_SATS, LGM0_LATE_SATS. check_cat. Qed.
Lemma cat_LOGTC_BIMOD : concat_of LOGTC_BIMOD [LOGTC_EARLY; LOGTC_LATE].
Proof. unfold LOGTC_BIMOD. check_cat. Qed.
Lemma cat_EARLY_INDEX_BIMOD : concat_of EARLY_INDEX_BIMOD [EARLY_INDEX_ALPHA; EARLY_INDEX_BETA].
Proof. unfold EARLY_INDEX_BIMOD. check_cat. Qed.
Lemma cat_LATE_INDEX_BIMOD : concat_of LATE_INDEX_BIMOD [LATE_INDEX_ALPHA; LATE_INDEX_BETA].
Proof. unfold LATE_INDEX_BIMOD. check_cat. Qed.

Lemma wfc_concat whole parts : concat_of whole parts -> Forall wfc parts ->
  NoDup (flat_map c_names parts) -> wfc whole.
Proof.
  intros Hcat Hp Hnd. destruct (concat_names _ _ Hcat) as (En & _ & Eb).
  destruct Hcat as [_ H2]. refine (conj _ (conj _ _)).
  - now rewrite En.
  - rewrite En, H2. clear - Hp. induction Hp as [|c parts Hc Hp IH]; [reflexivity|].
    cbn. rewrite map_app, IH. f_equal. apply Hc.
  - fold (bnds whole). rewrite Eb. clear - Hp. induction Hp as [|c parts Hc Hp IH]; [constructor|].
    cbn. apply Forall_app. split; [apply Hc|exact IH].
Qed.

Create HintDb wf.
#[global] Hint Resolve wfc_TPCENS_FLEX wfc_TP_SATS wfc_UTP wfc_TPCENS wfc_LGM0_C0_EARLY wfc_LGM0_C1_EARLY
  wfc_LGM0_C0_LATE wfc_LGM0_C1_LATE wfc_LGM0_C0_EARLY_SATS wfc_LGM0_C1_EARLY_SATS
  wfc_LGM0_C0_LATE_SATS wfc_LGM0_C1_LATE_SATS wfc_LOGTC_EARLY wfc_LOGTC_LATE
  wfc_EARLY_INDEX_ALPHA wfc_EARLY_INDEX_BETA wfc_EARLY_INDEX_POP wfc_LATE_INDEX_ALPHA
  wfc_LATE_INDEX_BETA wfc_FEC wfc_FTPT0 wfc_COV : wf.

Ltac wf_cat H := apply (wfc_concat _ _ H); [repeat (apply Forall_cons; [now auto with wf|]); apply Forall_nil|check_names].
Lemma wfc_LGM0_EARLY : wfc LGM0_EARLY. Proof. wf_cat cat_LGM0_EARLY. Qed.
Lemma wfc_LGM0_LATE : wfc LGM0_LATE. Proof. wf_cat cat_LGM0_LATE. Qed.
Lemma wfc_LGM0_EARLY_SATS : wfc LGM0_EARLY_SATS. Proof. wf_cat cat_LGM0_EARLY_SATS. Qed.
Lemma wfc_LGM0_LATE_SATS : wfc LGM0_LATE_SATS. Proof. wf_cat cat_LGM0_LATE_SATS. Qed.
Lemma wfc_LGM0_BIMOD : wfc LGM0_BIMOD. Proof. wf_cat cat_LGM0_BIMOD. Qed.
Lemma wfc_LGM0_BIMOD_SATS : wfc LGM0_BIMOD_SATS. Proof. wf_cat cat_LGM0_BIMOD_SATS. Qed.
Lemma wfc_LOGTC_BIMOD : wfc LOGTC_BIMOD. Proof. wf_cat cat_LOGTC_BIMOD. Qed.
Lemma wfc_EARLY_INDEX_BIMOD : wfc EARLY_INDEX_BIMOD. Proof. wf_cat cat_EARLY_INDEX_BIMOD. Qed.
Lemma wfc_LATE_INDEX_BIMOD : wfc LATE_INDEX_BIMOD. Proof. wf_cat cat_LATE_INDEX_BIMOD. Qed.
#[global] Hint Resolve wfc_LGM0_EARLY wfc_LGM0_LATE wfc_LGM0_EARLY_SATS wfc_LGM0_LATE_SATS
  wfc_LGM0_BIMOD wfc_LGM0_BIMOD_SATS wfc_LOGTC_BIMOD wfc_EARLY_INDEX_BIMOD wfc_LATE_INDEX_BIMOD : wf.

(** Every listed pair acts value by value. *)
Lemma bounding_pairs_act c b ub : In (c, b, ub) bounding_pairs -> wfc c /\ acts c b ub.
Proof.
  unfold bounding_pairs. intros H. apply in_app_or in H as [H|H].
  - apply in_map_iff in H as (c' & E & Hin). injection E as <- <- <-.
    assert (Hw : wfc c').
    { repeat (destruct Hin as [<-|Hin]; [auto with wf|]). destruct Hin. }
    split; [exact Hw|now apply acts_single].
  - repeat (destruct H as [H|H];
      [injection H as <- <- <-; split;
        [auto with wf
        |first [apply acts_pair; auto with wf; first [exact cat_LGM0_EARLY | exact cat_LGM0_LATE
               | exact cat_LGM0_EARLY_SATS | exact cat_LGM0_LATE_SATS | exact cat_LOGTC_BIMOD
               | exact cat_EARLY_INDEX_BIMOD]
               |apply acts_quad; auto with wf; first [exact cat_LGM0_BIMOD | exact cat_LGM0_BIMOD_SATS]]]|]).
    destruct H.
Qed.
