(** Bounding of population parameters in machine arithmetic. *)

From Coq Require Import Reals ZArith String List Bool Arith Lra Lia.
From Flocq Require Import Core.
From Verif Require Import Model_Num Model_Kernels Model_Base Model_PopBase Model_PopData Model_PopParams
  Model_Float Spec_Pop Spec_Float Spec_PopFloat RealAux Proofs_Float Proofs_Float2 Proofs_Float3
  Proofs_Float4 Proofs_Float5 Proofs_FloatQ Proofs_PopBase Proofs_PopParams Proofs_PopAll.
Import ListNotations.
Local Open Scope R_scope.
Local Open Scope string_scope.

(** ** The bounding functions act field by field, whatever the numbers *)

Section Generic.
  Context {A : Type} {N : Num A}.

  Definition gmap (us : list A) (bs : list (R * R)) : list A :=
    map (fun ub => get_bounded_param (fst ub) (snd ub)) (combine us bs).

  Definition gacts (c : component) (b : rec A -> res (rec A)) : Prop :=
    forall u, shaped (c_unames c) u -> b u = Ok (combine (c_names c) (gmap (values u) (bnds c))).

  Lemma gmap_length us bs : List.length us = List.length bs -> List.length (gmap us bs) = List.length bs.
  Proof. intros H. unfold gmap. rewrite map_length, combine_length. lia. Qed.

  Lemma gmap_app us1 us2 bs1 bs2 : List.length us1 = List.length bs1 ->
    gmap (us1 ++ us2) (bs1 ++ bs2) = (gmap us1 bs1 ++ gmap us2 bs2)%list.
  Proof. intros H. unfold gmap. now rewrite combine_app, map_app by exact H. Qed.

  Lemma gacts_single c : wfc c -> gacts c (get_bounded_params c).
  Proof.
    intros Hw u Hs.
    assert (Hg : getattrs u (c_unames c) = Ok (values u)).
    { unfold shaped in Hs. rewrite <- Hs. apply getattrs_self. unfold fields. rewrite Hs.
      now apply wfc_unames_nodup. }
    unfold get_bounded_params. rewrite Hg. cbn [bind].
    rewrite wfc_pbounds by exact Hw. cbn [bind].
    pose proof (getattrs_length _ _ _ Hg) as Hl. unfold c_unames in Hl. rewrite map_length in Hl.
    pose proof (wfc_bnds_length c Hw) as Hb.
    unfold vmap2. replace (List.length (values u) =? List.length (values (c_bdict c)))%nat with true.
    2:{ symmetry. apply Nat.eqb_eq. unfold values at 2. unfold bnds in Hb. lia. }
    cbn [bind]. apply make_ok. fold (gmap (values u) (bnds c)). rewrite gmap_length; lia.
  Qed.

  Lemma gpart_middle c (pre q post : rec A) : wfc c -> NoDup (fields (pre ++ q ++ post)%list) ->
    shaped (c_unames c) q ->
    part_bounded c (pre ++ q ++ post)%list = Ok (combine (c_names c) (gmap (values q) (bnds c))).
  Proof.
    intros Hw Hnd Hs. unfold part_bounded. rewrite (select_middle _ pre q post Hnd Hs). cbn [bind].
    now apply gacts_single.
  Qed.

  Lemma guvlen c (q : rec A) : wfc c -> shaped (c_unames c) q -> List.length (values q) = List.length (bnds c).
  Proof.
    intros Hw Hs. rewrite (shaped_length _ _ Hs). rewrite wfc_bnds_length by exact Hw. apply map_length.
  Qed.

  Lemma gblen c us : wfc c -> List.length us = List.length (bnds c) ->
    List.length (c_names c) = List.length (gmap us (bnds c)).
  Proof. intros Hw H. rewrite gmap_length by exact H. now rewrite wfc_bnds_length. Qed.

  Lemma gacts_pair whole c d : wfc whole -> wfc c -> wfc d -> concat_of whole [c; d] ->
    gacts whole (get_bounded_pair whole c d).
  Proof.
    intros Hw Hc Hd Hcat. destruct (concat_names _ _ Hcat) as (En & Eu & Eb).
    cbn [flat_map] in En, Eu, Eb. rewrite app_nil_r in En, Eu, Eb.
    intros u Hs. pose proof (wfc_unames_nodup _ Hw) as Hnd.
    rewrite <- Hs in Hnd. change (map fst u) with (fields u) in Hnd.
    rewrite Eu in Hs. apply shaped_app in Hs as (u1 & u2 & -> & H1 & H2).
    pose proof (guvlen _ _ Hc H1) as L1. pose proof (guvlen _ _ Hd H2) as L2.
    pose proof (gblen _ _ Hc L1) as M1. pose proof (gblen _ _ Hd L2) as M2.
    unfold get_bounded_pair.
    change (u1 ++ u2)%list with ([] ++ u1 ++ u2)%list at 1.
    rewrite (gpart_middle c [] u1 u2 Hc Hnd H1). cbn [bind].
    replace (part_bounded d (u1 ++ u2)%list) with (part_bounded d (u1 ++ u2 ++ [])%list) by now rewrite app_nil_r.
    rewrite (gpart_middle d u1 u2 [] Hd).
    2:{ now rewrite app_nil_r. } 2:{ exact H2. }
    cbn [bind]. rewrite !values_combine by assumption.
    rewrite make_ok.
    + do 2 f_equal. rewrite Eb, values_app, gmap_app by exact L1. reflexivity.
    + rewrite En, !app_length. lia.
  Qed.

  Lemma gacts_quad whole c d e f : wfc whole -> wfc c -> wfc d -> wfc e -> wfc f ->
    concat_of whole [c; d; e; f] -> gacts whole (get_bounded_quad whole c d e f).
  Proof.
    intros Hw Hc Hd He Hf Hcat. destruct (concat_names _ _ Hcat) as (En & Eu & Eb).
    cbn [flat_map] in En, Eu, Eb. rewrite app_nil_r in En, Eu, Eb.
    intros u Hs. pose proof (wfc_unames_nodup _ Hw) as Hnd.
    rewrite <- Hs in Hnd. change (map fst u) with (fields u) in Hnd.
    rewrite Eu in Hs. apply shaped_app in Hs as (u1 & u' & -> & H1 & Hs).
    apply shaped_app in Hs as (u2 & u'' & -> & H2 & Hs).
    apply shaped_app in Hs as (u3 & u4 & -> & H3 & H4).
    pose proof (guvlen _ _ Hc H1) as L1. pose proof (guvlen _ _ Hd H2) as L2.
    pose proof (guvlen _ _ He H3) as L3. pose proof (guvlen _ _ Hf H4) as L4.
    pose proof (gblen _ _ Hc L1) as M1. pose proof (gblen _ _ Hd L2) as M2.
    pose proof (gblen _ _ He L3) as M3. pose proof (gblen _ _ Hf L4) as M4.
    unfold get_bounded_quad.
    set (w := (u1 ++ u2 ++ u3 ++ u4)%list) in *.
    rewrite (gpart_middle c [] u1 (u2 ++ u3 ++ u4)%list Hc Hnd H1 : part_bounded c w = _).
    cbn [bind].
    rewrite (gpart_middle d u1 u2 (u3 ++ u4)%list Hd Hnd H2 : part_bounded d w = _). cbn [bind].
    assert (E3 : w = ((u1 ++ u2) ++ u3 ++ u4)%list) by (unfold w; now rewrite <- app_assoc).
    assert (E4 : w = ((u1 ++ u2 ++ u3) ++ u4 ++ [])%list)
      by (unfold w; now rewrite app_nil_r, <- !app_assoc).
    replace (part_bounded e w) with (Ok (combine (c_names e) (gmap (values u3) (bnds e)))).
    2:{ rewrite E3. symmetry. apply gpart_middle; auto. now rewrite <- E3. }
    cbn [bind].
    replace (part_bounded f w) with (Ok (combine (c_names f) (gmap (values u4) (bnds f)))).
    2:{ rewrite E4. symmetry. apply gpart_middle; auto. now rewrite <- E4. }
    cbn [bind]. rewrite !values_combine by assumption.
    rewrite make_ok.
    - do 2 f_equal. unfold w. rewrite Eb, !values_app, !gmap_app by assumption. reflexivity.
    - rewrite En, !app_length. lia.
  Qed.

  (** The late-index function returns the bounded beta values twice. *)
  Lemma gacts_late ua ub : shaped (c_unames LA) ua -> shaped (c_unames LB) ub ->
    get_bounded_late_index_params (ua ++ ub)%list
    = Ok (combine (c_names LA) (gmap (values ub) (bnds LB)) ++
          combine (c_names LB) (gmap (values ub) (bnds LB)))%list.
  Proof.
    intros H1 H2. pose proof wfc_LATE_INDEX_ALPHA as Ha. pose proof wfc_LATE_INDEX_BETA as Hb.
    assert (Hnd : NoDup (fields (ua ++ ub)%list)).
    { unfold fields. rewrite map_app. unfold shaped in H1, H2. rewrite H1, H2.
      destruct (concat_names _ _ cat_LATE_INDEX_BIMOD) as (_ & Eu & _).
      cbn [flat_map] in Eu. rewrite app_nil_r in Eu. change LA with LATE_INDEX_ALPHA.
      change LB with LATE_INDEX_BETA. rewrite <- Eu.
      apply wfc_unames_nodup. exact wfc_LATE_INDEX_BIMOD. }
    pose proof (guvlen _ _ Hb H2) as L2. pose proof (gblen _ _ Hb L2) as M2.
    unfold get_bounded_late_index_params.
    rewrite (gpart_middle LATE_INDEX_ALPHA [] ua ub Ha Hnd H1 : part_bounded LATE_INDEX_ALPHA (ua ++ ub)%list = _).
    cbn [bind].
    replace (part_bounded LATE_INDEX_BETA (ua ++ ub)%list) with
      (part_bounded LATE_INDEX_BETA (ua ++ ub ++ [])%list) by now rewrite app_nil_r.
    rewrite (gpart_middle LATE_INDEX_BETA ua ub [] Hb).
    2:{ now rewrite app_nil_r. } 2:{ exact H2. }
    cbn [bind]. rewrite !values_combine by assumption.
    destruct (concat_names _ _ cat_LATE_INDEX_BIMOD) as (En & _ & _).
    cbn [flat_map] in En. rewrite app_nil_r in En.
    rewrite make_ok.
    - f_equal. rewrite En. change LA with LATE_INDEX_ALPHA. change LB with LATE_INDEX_BETA.
      apply combine_app. rewrite <- M2. exact late_lengths.
    - rewrite En, !app_length. rewrite <- M2. f_equal.
  Qed.
End Generic.
