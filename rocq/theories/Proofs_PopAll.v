(** The whole population parameter set (bimod_censat_params.py). *)

From Coq Require Import Reals String List Bool Arith Lia Lra.
From Verif Require Import Model_Num Model_Base Model_Kernels Model_PopBase Model_PopData
  Model_PopParams Proofs_Kernels Spec_Pop Proofs_PopBase Proofs_PopParams.
Import ListNotations.
Local Open Scope R_scope.
Local Open Scope string_scope.

(** ** Late index *)

Definition LA := LATE_INDEX_ALPHA.
Definition LB := LATE_INDEX_BETA.

Lemma late_lengths : List.length (c_names LA) = List.length (c_names LB).
Proof. reflexivity. Qed.

Lemma late_bounded_eval ua ub : shaped (c_unames LA) ua -> shaped (c_unames LB) ub ->
  get_bounded_late_index_params (ua ++ ub)%list =
  Ok (combine (c_names LA) (bmap (values ub) (bnds LB)) ++
      combine (c_names LB) (bmap (values ub) (bnds LB)))%list.
Proof.
  intros Ha Hb.
  assert (Hnd : NoDup (fields (ua ++ ub)%list)).
  { unfold fields. rewrite map_app. unfold shaped in Ha, Hb. rewrite Ha, Hb. check_names. }
  assert (Hwa : wfc LA) by exact wfc_LATE_INDEX_ALPHA.
  assert (Hwb : wfc LB) by exact wfc_LATE_INDEX_BETA.
  pose proof (shaped_uvlen _ _ Hwb Hb) as L2. pose proof (names_blen _ _ Hwb L2) as M2.
  unfold get_bounded_late_index_params. fold LA LB.
  replace (part_bounded LA (ua ++ ub)%list) with (part_bounded LA ([] ++ ua ++ ub)%list) by reflexivity.
  rewrite (part_bounded_middle LA [] ua ub Hwa Hnd Ha). cbn [bind].
  replace (part_bounded LB (ua ++ ub)%list) with (part_bounded LB (ua ++ ub ++ [])%list) by now rewrite app_nil_r.
  rewrite (part_bounded_middle LB ua ub [] Hwb); [|now rewrite app_nil_r|exact Hb]. cbn [bind].
  rewrite values_combine by exact M2.
  destruct (concat_names _ _ cat_LATE_INDEX_BIMOD) as (En & _ & _). cbn [flat_map] in En.
  rewrite app_nil_r in En. fold LA LB in En. rewrite En.
  rewrite make_ok.
  - f_equal. apply combine_app. rewrite late_lengths. exact M2.
  - rewrite !app_length, late_lengths. lia.
Qed.

Lemma late_unbounded_eval pa pb : shaped (c_names LA) pa -> shaped (c_names LB) pb ->
  get_unbounded_late_index_params (pa ++ pb)%list =
  Ok (combine (c_unames LA) (umap (values pb) (bnds LB)) ++
      combine (c_unames LB) (umap (values pb) (bnds LB)))%list.
Proof.
  intros Ha Hb.
  assert (Hnd : NoDup (fields (pa ++ pb)%list)).
  { unfold fields. rewrite map_app. unfold shaped in Ha, Hb. rewrite Ha, Hb. check_names. }
  assert (Hwa : wfc LA) by exact wfc_LATE_INDEX_ALPHA.
  assert (Hwb : wfc LB) by exact wfc_LATE_INDEX_BETA.
  pose proof (shaped_vlen _ _ Hwb Hb) as L2. pose proof (unames_ulen _ _ Hwb L2) as M2.
  unfold get_unbounded_late_index_params. fold LA LB. cbv zeta.
  assert (G : getattrs (pa ++ pb)%list (c_names LB) = Ok (values pb)).
  { rewrite <- Hb. change (map fst pb) with (fields pb). rewrite <- (app_nil_r pb) at 1.
    apply getattrs_middle. now rewrite app_nil_r. }
  rewrite G. cbn [bind].
  assert (LL : List.length (c_names LA) = List.length (values pb)).
  { rewrite L2, wfc_bnds_length by exact Hwb. apply late_lengths. }
  rewrite make_ok by exact LL. cbn [bind].
  rewrite (proj2 (acts_single LA Hwa)).
  2:{ unfold shaped. change (map fst) with (@fields R). now rewrite fields_combine. }
  cbn [bind].
  assert (LL2 : List.length (c_names LB) = List.length (values pb)).
  { now rewrite <- late_lengths. }
  rewrite make_ok by exact LL2. cbn [bind].
  rewrite (proj2 (acts_single LB Hwb)).
  2:{ unfold shaped. change (map fst) with (@fields R). now rewrite fields_combine. }
  cbn [bind]. rewrite (values_combine (c_names LB)) by exact LL2.
  rewrite values_combine by exact M2.
  destruct (concat_names _ _ cat_LATE_INDEX_BIMOD) as (_ & Eu & _). cbn [flat_map] in Eu.
  rewrite app_nil_r in Eu. fold LA LB in Eu. rewrite Eu.
  assert (LU : List.length (c_unames LA) = List.length (c_unames LB)) by reflexivity.
  rewrite make_ok.
  - f_equal. apply combine_app. rewrite LU. exact M2.
  - rewrite !app_length, LU. lia.
Qed.

(** ** Names *)

Lemma pop_names_concat : POP_NAMES = flat_map c_names COMPONENTS.
Proof. vm_compute. reflexivity. Qed.

Lemma pop_names_nodup : NoDup POP_NAMES.
Proof. rewrite pop_names_concat. check_names. Qed.

Lemma pop_bounds_names : map fst pop_bounds = POP_NAMES.
Proof. vm_compute. reflexivity. Qed.

Definition POP_UNAMES := map uname POP_NAMES.

Lemma pop_unames_concat : POP_UNAMES = flat_map c_unames COMPONENTS.
Proof. unfold POP_UNAMES. rewrite pop_names_concat. unfold c_unames.
  induction COMPONENTS as [|c l IH]; [reflexivity|]. cbn. now rewrite map_app, IH.
Qed.

Lemma pop_unames_nodup : NoDup POP_UNAMES.
Proof. apply NoDup_unames, pop_names_nodup. Qed.

(** ** Slices *)

Lemma mapM_select {A} (nm : component -> list string) cs (pre p : rec A) :
  NoDup (fields (pre ++ p)%list) -> shaped (flat_map nm cs) p ->
  exists ps, mapM (fun c => select (nm c) (pre ++ p)%list) cs = Ok ps /\
    concat ps = p /\ Forall2 (fun c q => shaped (nm c) q) cs ps.
Proof.
  revert pre p. induction cs as [|c cs IH]; intros pre p Hnd Hs; cbn.
  - apply map_eq_nil in Hs. subst p. exists []. auto.
  - cbn in Hs. apply shaped_app in Hs as (q & r & -> & Hq & Hr).
    rewrite (select_middle (nm c) pre q r Hnd Hq). cbn [bind].
    rewrite app_assoc in *. destruct (IH _ _ Hnd Hr) as (ps & E & Ec & Ef).
    rewrite E. exists (q :: ps). cbn. rewrite Ec. auto.
Qed.

Lemma component_params_slices {A} (p : rec A) : shaped POP_NAMES p ->
  exists ps, get_component_model_params p = Ok ps /\ concat ps = p /\
    Forall2 (fun c q => shaped (c_names c) q) COMPONENTS ps.
Proof.
  intros Hs. apply (mapM_select c_names COMPONENTS [] p).
  - cbn. unfold fields. rewrite Hs. apply pop_names_nodup.
  - now rewrite <- pop_names_concat.
Qed.

Lemma component_u_params_slices {A} (u : rec A) : shaped POP_UNAMES u ->
  exists us, get_component_model_u_params u = Ok us /\ concat us = u /\
    Forall2 (fun c q => shaped (c_unames c) q) COMPONENTS us.
Proof.
  intros Hs. apply (mapM_select c_unames COMPONENTS [] u).
  - cbn. unfold fields. rewrite Hs. apply pop_unames_nodup.
  - now rewrite <- pop_unames_concat.
Qed.

(** ** Putting the slices together *)

Lemma replace_loop_spec {A} (l : list (rec A)) acc :
  NoDup (fields (concat l)) ->
  (forall k, In k (fields (concat l)) -> In k (fields acc)) ->
  exists r, replace_loop acc l = Ok r /\ fields r = fields acc /\
    forall k, getattr r k = match getattr (concat l) k with Ok v => Ok v | Err _ => getattr acc k end.
Proof.
  revert acc. induction l as [|q l IH]; intros acc Hnd Hin; cbn [concat replace_loop].
  - exists acc. cbn. auto.
  - cbn [concat] in *. unfold fields in Hnd. rewrite map_app in Hnd.
    destruct (replace_ok acc q) as (r & E & Ef & Eg).
    { intros k Hk. apply Hin. unfold fields. rewrite map_app. apply in_or_app. now left. }
    rewrite E. cbn [bind].
    destruct (IH r) as (s & Es & Esf & Esg).
    { clear - Hnd. induction (map fst q); [exact Hnd|]. inversion Hnd; auto. }
    { intros k Hk. rewrite Ef. apply Hin. unfold fields. rewrite map_app. apply in_or_app. now right. }
    exists s. rewrite Es, Esf, Ef. refine (conj eq_refl (conj eq_refl _)). intros k. rewrite Esg, Eg.
    assert (Hcat : forall (a b : rec A), getattr (a ++ b)%list k =
      match getattr a k with Ok v => Ok v | Err _ => getattr b k end).
    { clear. induction a as [|[k' v'] a IHa]; intros b; cbn; [reflexivity|]. destruct (String.eqb k' k); auto. }
    rewrite Hcat.
    destruct (getattr q k) as [v|e] eqn:Eq; [|reflexivity].
    rewrite (getattr_not_in (concat l) k); [reflexivity|].
    apply getattr_in in Eq. apply (in_map fst) in Eq. cbn in Eq.
    intros Hk. unfold fields in Hk. clear - Hnd Eq Hk. induction (map fst q) as [|a m IHm]; [destruct Eq|].
    cbn in Hnd. inversion Hnd as [|? ? H1 H2]; subst. destruct Eq as [->|Eq].
    + apply H1. apply in_or_app. now right.
    + apply IHm; assumption.
Qed.

Lemma replace_loop_all {A} (l : list (rec A)) acc :
  NoDup (fields acc) -> fields (concat l) = fields acc -> replace_loop acc l = Ok (concat l).
Proof.
  intros Hnd Hf. destruct (replace_loop_spec l acc) as (r & E & Er & Eg).
  - now rewrite Hf.
  - now rewrite Hf.
  - rewrite E. f_equal. apply rec_ext.
    + now rewrite Er.
    + now rewrite Er.
    + intros k Hk. rewrite Eg. rewrite Er, <- Hf in Hk.
      destruct (in_fields_getattr _ _ Hk) as (v & ->). reflexivity.
Qed.

Lemma fields_concat {A} (nm : component -> list string) cs (ps : list (rec A)) :
  Forall2 (fun c q => shaped (nm c) q) cs ps -> fields (concat ps) = flat_map nm cs.
Proof.
  induction 1 as [|c q cs ps H HF IH]; [reflexivity|]. cbn. unfold fields in *. rewrite map_app, IH.
  unfold shaped in H. now rewrite H.
Qed.

(** ** The defaults *)

Lemma pdict_names : fields DEFAULT_DIFFMAHPOP_PDICT = POP_NAMES.
Proof. reflexivity. Qed.

Lemma fields_rec_const {A} {N : Num A} p : fields (rec_const (A:=A) p) = fields p.
Proof. unfold rec_const, fields. rewrite map_map. apply map_ext. reflexivity. Qed.

Lemma default_params_shaped : exists d : rec R, DEFAULT_DIFFMAHPOP_PARAMS = Ok d /\ shaped POP_NAMES d.
Proof.
  unfold DEFAULT_DIFFMAHPOP_PARAMS. rewrite <- pdict_names.
  rewrite make_kw_self by (rewrite pdict_names; apply pop_names_nodup). cbn [bind].
  eexists. split; [reflexivity|]. unfold shaped. change (map fst) with (@fields R).
  now rewrite fields_rec_const.
Qed.

Lemma component_default_shaped c : wfc c -> exists d : rec R, component_default c = Ok d /\ shaped (c_names c) d.
Proof.
  intros Hw. unfold component_default, c_default. unfold c_names at 1.
  change (map fst (c_pdict c)) with (fields (c_pdict c)).
  rewrite make_kw_self by apply Hw. cbn [bind]. eexists. split; [reflexivity|].
  unfold shaped. change (map fst) with (@fields R) at 1. rewrite fields_rec_const. reflexivity.
Qed.

Lemma combine_unames_shaped c vs : List.length (c_unames c) = List.length vs ->
  shaped (A:=R) (c_unames c) (combine (c_unames c) vs).
Proof. intros H. unfold shaped. change (map fst) with (@fields R). now rewrite fields_combine. Qed.
Lemma combine_names_shaped c vs : List.length (c_names c) = List.length vs ->
  shaped (A:=R) (c_names c) (combine (c_names c) vs).
Proof. intros H. unfold shaped. change (map fst) with (@fields R). now rewrite fields_combine. Qed.

Lemma acts_shaped c b ub : wfc c -> acts c b ub ->
  (forall u, shaped (c_unames c) u -> exists p, b u = Ok p /\ shaped (c_names c) p) /\
  (forall p, shaped (c_names c) p -> exists u, ub p = Ok u /\ shaped (c_unames c) u).
Proof.
  intros Hw [Hb Hu]. split.
  - intros u Hs. rewrite (Hb u Hs). eexists. split; [reflexivity|]. apply combine_names_shaped.
    apply names_blen; [exact Hw|]. now apply shaped_uvlen.
  - intros p Hs. rewrite (Hu p Hs). eexists. split; [reflexivity|]. apply combine_unames_shaped.
    apply unames_ulen; [exact Hw|]. now apply shaped_vlen.
Qed.

Lemma late_shaped :
  (forall u, shaped (c_unames LATE_INDEX_BIMOD) u -> exists p, get_bounded_late_index_params u = Ok p /\
     shaped (A:=R) (c_names LATE_INDEX_BIMOD) p) /\
  (forall p, shaped (c_names LATE_INDEX_BIMOD) p -> exists u, get_unbounded_late_index_params p = Ok u /\
     shaped (A:=R) (c_unames LATE_INDEX_BIMOD) u).
Proof.
  destruct (concat_names _ _ cat_LATE_INDEX_BIMOD) as (En & Eu & _). cbn [flat_map] in En, Eu.
  rewrite app_nil_r in En, Eu. fold LA LB in En, Eu.
  assert (Hwb : wfc LB) by exact wfc_LATE_INDEX_BETA.
  split.
  - intros u Hs. rewrite Eu in Hs. apply shaped_app in Hs as (ua & ub & -> & Ha & Hb).
    rewrite (late_bounded_eval _ _ Ha Hb). eexists. split; [reflexivity|].
    unfold shaped. rewrite map_app. change (map fst) with (@fields R).
    pose proof (names_blen _ _ Hwb (shaped_uvlen _ _ Hwb Hb)) as M.
    rewrite !fields_combine; [now rewrite En|exact M|now rewrite late_lengths].
  - intros u Hs. rewrite En in Hs. apply shaped_app in Hs as (ua & ub & -> & Ha & Hb).
    rewrite (late_unbounded_eval _ _ Ha Hb). eexists. split; [reflexivity|].
    unfold shaped. rewrite map_app. change (map fst) with (@fields R).
    pose proof (unames_ulen _ _ Hwb (shaped_vlen _ _ Hwb Hb)) as M.
    rewrite !fields_combine; [now rewrite Eu|exact M|exact M].
Qed.

Lemma acts_m0 : acts LGM0_BIMOD get_bounded_m0pop_params get_unbounded_m0pop_params.
Proof. apply (bounding_pairs_act _ _ _). unfold bounding_pairs. apply in_or_app. right. cbn. tauto. Qed.
Lemma acts_m0_sats : acts LGM0_BIMOD_SATS get_bounded_m0pop_params_sats get_unbounded_m0pop_params_sats.
Proof. apply (bounding_pairs_act _ _ _). unfold bounding_pairs. apply in_or_app. right. cbn. tauto. Qed.
Lemma acts_logtc : acts LOGTC_BIMOD get_bounded_logtc_params get_unbounded_logtc_params.
Proof. apply (bounding_pairs_act _ _ _). unfold bounding_pairs. apply in_or_app. right. cbn. tauto. Qed.
Lemma acts_early : acts EARLY_INDEX_BIMOD get_bounded_early_index_params get_unbounded_early_index_params.
Proof. apply (bounding_pairs_act _ _ _). unfold bounding_pairs. apply in_or_app. right. cbn. tauto. Qed.

Lemma components_wf : Forall wfc COMPONENTS.
Proof. unfold COMPONENTS. repeat (apply Forall_cons; [now auto with wf|]). apply Forall_nil. Qed.

Definition keeps (c : component) (bu : (rec R -> res (rec R)) * (rec R -> res (rec R))) : Prop :=
  (forall u, shaped (c_unames c) u -> exists p, fst bu u = Ok p /\ shaped (c_names c) p) /\
  (forall p, shaped (c_names c) p -> exists u, snd bu p = Ok u /\ shaped (c_unames c) u).

Lemma components_keep_shape : Forall2 keeps COMPONENTS (combine BOUNDERS UNBOUNDERS).
Proof.
  unfold COMPONENTS, BOUNDERS, UNBOUNDERS. cbn [combine].
  repeat apply Forall2_cons; try apply Forall2_nil; unfold keeps; cbn [fst snd].
  1,2,8,9: apply acts_shaped; auto with wf; apply acts_single; auto with wf.
  - apply (acts_shaped _ _ _ wfc_LGM0_BIMOD acts_m0).
  - apply (acts_shaped _ _ _ wfc_LGM0_BIMOD_SATS acts_m0_sats).
  - apply (acts_shaped _ _ _ wfc_LOGTC_BIMOD acts_logtc).
  - apply (acts_shaped _ _ _ wfc_EARLY_INDEX_BIMOD acts_early).
  - apply late_shaped.
Qed.

(** ** Evaluation of the two maps *)

Lemma mapM_ok {B C} (f : B -> res C) (P : B -> C -> Prop) l :
  Forall (fun x => exists y, f x = Ok y /\ P x y) l ->
  exists ys, mapM f l = Ok ys /\ Forall2 P l ys.
Proof.
  induction 1 as [|x l (y & E & HP) HF (ys & IH & HF2)]; cbn; [exists []; auto|].
  rewrite E. cbn [bind]. rewrite IH. exists (y :: ys). auto.
Qed.

Lemma concat_dicts {A} (l : list (rec A)) d : NoDup (fields (d ++ concat l)%list) ->
  fold_left dict_update l d = (d ++ concat l)%list.
Proof.
  revert d. induction l as [|e l IH]; intros d H; cbn; [now rewrite app_nil_r|].
  cbn in H. rewrite app_assoc in *. rewrite dict_update_fresh.
  - apply IH. exact H.
  - unfold fields in H. rewrite map_app in H. clear - H.
    induction (map fst (d ++ e)%list) as [|a m IHm]; [constructor|]. cbn in H. inversion H as [|? ? H1 H2]; subst.
    constructor; [|auto]. intros Hin. apply H1. apply in_or_app. now left.
Qed.

Lemma mapM_unbounders cs bs ubs : List.length bs = List.length ubs -> Forall2 keeps cs (combine bs ubs) ->
  forall ps : list (rec R), Forall2 (fun c q => shaped (c_names c) q) cs ps ->
  exists us, mapM (fun fp => fst fp (snd fp)) (combine ubs ps) = Ok us /\
    Forall2 (fun c q => shaped (A:=R) (c_unames c) q) cs us.
Proof.
  revert bs ubs. induction cs as [|c cs IH]; intros bs ubs HL HK ps HF.
  - inversion HF; subst. exists []. destruct ubs; split; reflexivity || constructor.
  - inversion HF as [|? p ? ps' Hp HF']; subst.
    destruct bs as [|b bs], ubs as [|ub ubs]; try discriminate; cbn in HK;
      inversion HK as [|? ? ? ? [_ H1] H2]; subst.
    destruct (H1 p Hp) as (u & Eu & Su). cbn in Eu.
    destruct (IH bs ubs ltac:(cbn in HL; lia) H2 ps' HF') as (us & E & F).
    exists (u :: us). cbn [combine mapM fst snd]. rewrite Eu. cbn [bind]. rewrite E. split; [reflexivity|].
    constructor; assumption.
Qed.

Lemma mapM_bounders cs bs ubs : List.length bs = List.length ubs -> Forall2 keeps cs (combine bs ubs) ->
  forall us : list (rec R), Forall2 (fun c q => shaped (c_unames c) q) cs us ->
  exists ps, mapM (fun fp => fst fp (snd fp)) (combine bs us) = Ok ps /\
    Forall2 (fun c q => shaped (A:=R) (c_names c) q) cs ps.
Proof.
  revert bs ubs. induction cs as [|c cs IH]; intros bs ubs HL HK ps HF.
  - inversion HF; subst. exists []. destruct bs; split; reflexivity || constructor.
  - inversion HF as [|? p ? ps' Hp HF']; subst.
    destruct bs as [|b bs], ubs as [|ub ubs]; try discriminate; cbn in HK;
      inversion HK as [|? ? ? ? [H1 _] H2]; subst.
    destruct (H1 p Hp) as (u & Eu & Su). cbn in Eu.
    destruct (IH bs ubs ltac:(cbn in HL; lia) H2 ps' HF') as (us & E & F).
    exists (u :: us). cbn [combine mapM fst snd]. rewrite Eu. cbn [bind]. rewrite E. split; [reflexivity|].
    constructor; assumption.
Qed.

Lemma mapM_defaults cs : Forall wfc cs -> exists ds : list (rec R),
  mapM component_default cs = Ok ds /\ Forall2 (fun c q => shaped (c_names c) q) cs ds.
Proof.
  intros H. apply mapM_ok. eapply Forall_impl; [|exact H]. intros c. apply component_default_shaped.
Qed.

Lemma mapM_compose {B C D} (f : B -> res C) (fs : list (C -> res D)) l ds :
  mapM f l = Ok ds -> mapM (fun cf => let* d := f (fst cf) in snd cf d) (combine l fs) =
  mapM (fun fp => fst fp (snd fp)) (combine fs ds).
Proof.
  revert fs ds. induction l as [|x l IH]; intros fs ds H.
  - cbn in H. injection H as <-. destruct fs; reflexivity.
  - cbn in H. destruct (f x) as [d|] eqn:E; [|discriminate]. cbn in H.
    destruct (mapM f l) as [ds'|] eqn:E2; [|discriminate]. cbn in H. injection H as <-.
    destruct fs as [|g fs]; [reflexivity|]. cbn [combine mapM fst snd]. rewrite E. cbn [bind].
    now rewrite (IH fs ds' eq_refl).
Qed.

Lemma default_u_params_shaped : exists d : rec R, DEFAULT_DIFFMAHPOP_U_PARAMS = Ok d /\ shaped POP_UNAMES d.
Proof.
  unfold DEFAULT_DIFFMAHPOP_U_PARAMS.
  destruct (mapM_defaults _ components_wf) as (ds & Ed & Fd).
  rewrite (mapM_compose _ _ _ _ Ed).
  destruct (mapM_unbounders COMPONENTS BOUNDERS UNBOUNDERS eq_refl components_keep_shape _ Fd) as (us & Eu & Fu).
  rewrite Eu. cbn [bind].
  pose proof (fields_concat c_unames _ _ Fu) as Ef. rewrite <- pop_unames_concat in Ef.
  assert (Hnd : NoDup (fields (concat us))) by (rewrite Ef; apply pop_unames_nodup).
  rewrite (concat_dicts us []) by exact Hnd. change ([] ++ concat us)%list with (concat us).
  change (map fst (concat us)) with (fields (concat us)).
  rewrite make_kw_self by exact Hnd. eauto.
Qed.

Lemma to_u_eval p : shaped POP_NAMES p -> exists ps us : list (rec R),
  concat ps = p /\ Forall2 (fun c q => shaped (c_names c) q) COMPONENTS ps /\
  mapM (fun fp => fst fp (snd fp)) (combine UNBOUNDERS ps) = Ok us /\
  Forall2 (fun c q => shaped (A:=R) (c_unames c) q) COMPONENTS us /\
  get_diffmahpop_u_params_from_params p = Ok (concat us).
Proof.
  intros Hs. destruct (component_params_slices p Hs) as (ps & Ep & Ec & Fp).
  destruct (mapM_unbounders COMPONENTS BOUNDERS UNBOUNDERS eq_refl components_keep_shape _ Fp) as (us & Eu & Fu).
  exists ps, us. refine (conj Ec (conj Fp (conj Eu (conj Fu _)))).
  unfold get_diffmahpop_u_params_from_params. rewrite Ep. cbn [bind]. rewrite Eu. cbn [bind].
  destruct default_u_params_shaped as (d & -> & Sd). cbn [bind].
  apply replace_loop_all.
  - unfold fields. rewrite Sd. apply pop_unames_nodup.
  - rewrite (fields_concat c_unames _ _ Fu), <- pop_unames_concat. symmetry. exact Sd.
Qed.

Lemma from_u_eval u : shaped POP_UNAMES u -> exists us ps : list (rec R),
  concat us = u /\ Forall2 (fun c q => shaped (c_unames c) q) COMPONENTS us /\
  mapM (fun fp => fst fp (snd fp)) (combine BOUNDERS us) = Ok ps /\
  Forall2 (fun c q => shaped (A:=R) (c_names c) q) COMPONENTS ps /\
  get_diffmahpop_params_from_u_params u = Ok (concat ps).
Proof.
  intros Hs. destruct (component_u_params_slices u Hs) as (us & Ep & Ec & Fp).
  destruct (mapM_bounders COMPONENTS BOUNDERS UNBOUNDERS eq_refl components_keep_shape _ Fp) as (ps & Eu & Fu).
  exists us, ps. refine (conj Ec (conj Fp (conj Eu (conj Fu _)))).
  unfold get_diffmahpop_params_from_u_params. rewrite Ep. cbn [bind]. rewrite Eu. cbn [bind].
  destruct default_params_shaped as (d & -> & Sd). cbn [bind].
  apply replace_loop_all.
  - unfold fields. rewrite Sd. apply pop_names_nodup.
  - rewrite (fields_concat c_names _ _ Fu), <- pop_names_concat. symmetry. exact Sd.
Qed.

(** Slices are determined by their shapes. *)
Lemma slices_unique {A} (nm : component -> list string) cs (ps qs : list (rec A)) :
  Forall2 (fun c q => shaped (nm c) q) cs ps -> Forall2 (fun c q => shaped (nm c) q) cs qs ->
  concat ps = concat qs -> ps = qs.
Proof.
  intros H. revert qs. induction H as [|c p cs ps H HF IH]; intros qs H2 E; inversion H2; subst; [reflexivity|].
  cbn in E. assert (L : List.length p = List.length y).
  { unfold shaped in *. rewrite <- (map_length fst p), <- (map_length fst y). congruence. }
  assert (p = y /\ concat ps = concat l').
  { clear - E L. revert y E L. induction p as [|a p IHp]; intros [|b y] E L; cbn in *; try discriminate.
    - auto.
    - injection E as -> E. destruct (IHp y E ltac:(lia)) as [-> ->]. auto. }
  destruct H0 as [-> E']. f_equal. auto.
Qed.

(** ** Legality of the slices *)

Lemma pop_bounds_concat : pop_bounds = flat_map c_bdict COMPONENTS.
Proof.
  unfold pop_bounds, COMPONENTS. cbn [flat_map].
  rewrite (proj2 cat_LGM0_BIMOD), (proj2 cat_LGM0_BIMOD_SATS), (proj2 cat_LOGTC_BIMOD),
    (proj2 cat_EARLY_INDEX_BIMOD), (proj2 cat_LATE_INDEX_BIMOD).
  cbn [flat_map]. rewrite !app_nil_r, <- !app_assoc. reflexivity.
Qed.

Lemma in_bounds_app b1 b2 p1 p2 :
  map fst b1 = map fst p1 -> map fst b2 = map fst p2 -> NoDup (fields (p1 ++ p2)%list) ->
  in_bounds (b1 ++ b2)%list (p1 ++ p2)%list <-> in_bounds b1 p1 /\ in_bounds b2 p2.
Proof.
  intros H1 H2 Hnd. split.
  - intros H. split; intros k lo hi Hin.
    + destruct (H k lo hi) as (v & Hv & B); [apply in_or_app; now left|].
      exists v. split; [|exact B].
      assert (Hk : In k (fields p1)).
      { unfold fields. rewrite <- H1. apply (in_map fst) in Hin. exact Hin. }
      apply in_fields_getattr in Hk as (w & Hw). apply getattr_in in Hw.
      assert (getattr (p1 ++ p2)%list k = Ok v) as E1 by now apply in_getattr.
      assert (getattr (p1 ++ p2)%list k = Ok w) as E2.
      { apply in_getattr; [exact Hnd|]. apply in_or_app. now left. }
      rewrite E1 in E2. injection E2 as ->. exact Hw.
    + destruct (H k lo hi) as (v & Hv & B); [apply in_or_app; now right|].
      exists v. split; [|exact B].
      assert (Hk : In k (fields p2)).
      { unfold fields. rewrite <- H2. apply (in_map fst) in Hin. exact Hin. }
      apply in_fields_getattr in Hk as (w & Hw). apply getattr_in in Hw.
      assert (getattr (p1 ++ p2)%list k = Ok v) as E1 by now apply in_getattr.
      assert (getattr (p1 ++ p2)%list k = Ok w) as E2.
      { apply in_getattr; [exact Hnd|]. apply in_or_app. now right. }
      rewrite E1 in E2. injection E2 as ->. exact Hw.
  - intros [Ha Hb] k lo hi Hin. apply in_app_or in Hin as [Hin|Hin].
    + destruct (Ha _ _ _ Hin) as (v & Hv & B). exists v. split; [|exact B]. apply in_or_app. now left.
    + destruct (Hb _ _ _ Hin) as (v & Hv & B). exists v. split; [|exact B]. apply in_or_app. now right.
Qed.

Lemma in_bounds_slices cs (ps : list (rec R)) : Forall wfc cs ->
  Forall2 (fun c q => shaped (c_names c) q) cs ps -> NoDup (fields (concat ps)) ->
  in_bounds (flat_map c_bdict cs) (concat ps) <-> Forall2 (fun c q => in_bounds (c_bdict c) q) cs ps.
Proof.
  intros W F. induction F as [|c p cs ps H HF IH]; intros Hnd.
  - split; [constructor|]. intros _ k lo hi [].
  - inversion W as [|? ? W1 W2]; subst. cbn [flat_map concat] in *.
    assert (Hnd2 : NoDup (fields (concat ps))).
    { unfold fields in Hnd. rewrite map_app in Hnd. clear - Hnd.
      induction (map fst p); [exact Hnd|]. inversion Hnd; auto. }
    rewrite in_bounds_app; [|rewrite (proj1 (proj2 W1)); symmetry; exact H| |exact Hnd].
    + rewrite (IH W2 Hnd2). split.
      * intros []. constructor; assumption.
      * inversion 1; subst. split; assumption.
    + clear - W2 HF. change (map fst (concat ps)) with (fields (concat ps)).
      rewrite (fields_concat c_names _ _ HF). clear HF.
      induction W2 as [|d ds D W IH]; [reflexivity|]. cbn. rewrite map_app, IH.
      f_equal. apply D.
Qed.

(** ** Round trips *)

Definition pop_bijections (c : component) (b ub : rec R -> res (rec R)) : Prop :=
  (forall u, unbounded_for c u -> exists p, b u = Ok p /\ legal_for c p /\ ub p = Ok u) /\
  (forall p, legal_for c p -> exists u, ub p = Ok u /\ unbounded_for c u /\ b u = Ok p).

Lemma bij_single c : wfc c -> pop_bijections c (get_bounded_params c) (get_unbounded_params c).
Proof. intros Hw. apply (acts_bijection _ _ _ Hw (acts_single _ Hw)). Qed.

Lemma late_split {A} (p : rec A) : shaped (c_names LATE_INDEX_BIMOD) p ->
  exists pa pb, p = (pa ++ pb)%list /\ shaped (c_names LA) pa /\ shaped (c_names LB) pb.
Proof.
  destruct (concat_names _ _ cat_LATE_INDEX_BIMOD) as (En & _ & _). cbn [flat_map] in En.
  rewrite app_nil_r in En. intros H. rewrite En in H. now apply shaped_app in H.
Qed.

Lemma late_usplit {A} (p : rec A) : shaped (c_unames LATE_INDEX_BIMOD) p ->
  exists pa pb, p = (pa ++ pb)%list /\ shaped (c_unames LA) pa /\ shaped (c_unames LB) pb.
Proof.
  destruct (concat_names _ _ cat_LATE_INDEX_BIMOD) as (_ & En & _). cbn [flat_map] in En.
  rewrite app_nil_r in En. intros H. rewrite En in H. now apply shaped_app in H.
Qed.

Lemma late_legal_split pa pb : shaped (c_names LA) pa -> shaped (c_names LB) pb ->
  in_bounds (c_bdict LATE_INDEX_BIMOD) (pa ++ pb)%list <->
  in_bounds (c_bdict LA) pa /\ in_bounds (c_bdict LB) pb.
Proof.
  intros Ha Hb. rewrite (proj2 cat_LATE_INDEX_BIMOD). cbn [flat_map]. rewrite app_nil_r.
  apply in_bounds_app.
  - rewrite Ha. reflexivity.
  - rewrite Hb. reflexivity.
  - unfold fields. rewrite map_app. unfold shaped in Ha, Hb. rewrite Ha, Hb. check_names.
Qed.

(** The alpha fields of the late index replaced by the beta values. *)
Lemma late_roundtrip pa pb : shaped (c_names LA) pa -> shaped (c_names LB) pb ->
  in_bounds (c_bdict LB) pb ->
  exists u, get_unbounded_late_index_params (pa ++ pb)%list = Ok u /\
    shaped (c_unames LATE_INDEX_BIMOD) u /\
    get_bounded_late_index_params u = Ok (combine (c_names LA) (values pb) ++ pb)%list.
Proof.
  intros Ha Hb Hl.
  assert (Hwb : wfc LB) by exact wfc_LATE_INDEX_BETA.
  pose proof (unames_ulen _ _ Hwb (shaped_vlen _ _ Hwb Hb)) as M.
  rewrite (late_unbounded_eval _ _ Ha Hb). eexists. split; [reflexivity|]. split.
  - unfold shaped. rewrite map_app. change (map fst) with (@fields R).
    rewrite !fields_combine; [|exact M|exact M].
    destruct (concat_names _ _ cat_LATE_INDEX_BIMOD) as (_ & En & _). rewrite En. cbn [flat_map].
    now rewrite app_nil_r.
  - rewrite late_bounded_eval.
    + rewrite values_combine by exact M.
      apply (legal_values _ _ Hwb Hb) in Hl. rewrite (bmap_umap _ _ Hl).
      rewrite <- (shaped_combine _ _ Hb). reflexivity.
    + unfold shaped. change (map fst) with (@fields R). rewrite fields_combine; [reflexivity|exact M].
    + unfold shaped. change (map fst) with (@fields R). rewrite fields_combine; [reflexivity|exact M].
Qed.

Lemma late_uroundtrip ua ub : shaped (c_unames LA) ua -> shaped (c_unames LB) ub ->
  exists p, get_bounded_late_index_params (ua ++ ub)%list = Ok p /\
    legal_for LATE_INDEX_BIMOD p /\
    get_unbounded_late_index_params p = Ok (combine (c_unames LA) (values ub) ++ ub)%list.
Proof.
  intros Ha Hb.
  assert (Hwb : wfc LB) by exact wfc_LATE_INDEX_BETA.
  pose proof (shaped_uvlen _ _ Hwb Hb) as L.
  pose proof (names_blen _ _ Hwb L) as M.
  assert (Sa : shaped (c_names LA) (combine (c_names LA) (bmap (values ub) (bnds LB)))).
  { unfold shaped. change (map fst) with (@fields R). rewrite fields_combine; [reflexivity|exact M]. }
  assert (Sb : shaped (c_names LB) (combine (c_names LB) (bmap (values ub) (bnds LB)))).
  { unfold shaped. change (map fst) with (@fields R). rewrite fields_combine; [reflexivity|exact M]. }
  rewrite (late_bounded_eval _ _ Ha Hb). eexists. split; [reflexivity|]. split.
  - split.
    + unfold shaped. rewrite map_app, Sa, Sb.
      destruct (concat_names _ _ cat_LATE_INDEX_BIMOD) as (En & _ & _). unfold c_names in En. rewrite En. cbn [flat_map].
      now rewrite app_nil_r.
    + apply late_legal_split; [exact Sa|exact Sb|].
      assert (I : Forall2 inside (bmap (values ub) (bnds LB)) (bnds LB)).
      { apply bmap_inside; [exact L|]. apply Hwb. }
      split.
      * change (in_bounds (combine (c_names LA) (bnds LB)) (combine (c_names LA) (bmap (values ub) (bnds LB)))).
        apply in_bounds_combine; [check_names|reflexivity|exact M|exact I].
      * rewrite (bdict_combine _ Hwb). apply in_bounds_combine; [apply Hwb|reflexivity|exact M|exact I].
  - rewrite (late_unbounded_eval _ _ Sa Sb). rewrite values_combine by exact M.
    rewrite umap_bmap; [|exact L|apply Hwb]. rewrite <- (shaped_combine _ _ Hb). reflexivity.
Qed.

Lemma nine {A} (P : component -> A -> Prop) l : Forall2 P COMPONENTS l ->
  exists a1 a2 a3 a4 a5 a6 a7 a8 a9, l = [a1; a2; a3; a4; a5; a6; a7; a8; a9] /\
    P TPCENS_FLEX a1 /\ P TP_SATS a2 /\ P LGM0_BIMOD a3 /\ P LGM0_BIMOD_SATS a4 /\ P LOGTC_BIMOD a5 /\
    P EARLY_INDEX_BIMOD a6 /\ P LATE_INDEX_BIMOD a7 /\ P FEC a8 /\ P COV a9.
Proof.
  unfold COMPONENTS. intros H.
  inversion H as [|? a1 ? ? H1 F1]; subst; clear H. inversion F1 as [|? a2 ? ? H2 F2]; subst; clear F1.
  inversion F2 as [|? a3 ? ? H3 F3]; subst; clear F2. inversion F3 as [|? a4 ? ? H4 F4]; subst; clear F3.
  inversion F4 as [|? a5 ? ? H5 F5]; subst; clear F4. inversion F5 as [|? a6 ? ? H6 F6]; subst; clear F5.
  inversion F6 as [|? a7 ? ? H7 F7]; subst; clear F6. inversion F7 as [|? a8 ? ? H8 F8]; subst; clear F7.
  inversion F8 as [|? a9 ? ? H9 F9]; subst; clear F8. inversion F9; subst.
  exists a1, a2, a3, a4, a5, a6, a7, a8, a9. auto 12.
Qed.

Lemma Forall2_and {B C} (P Q : B -> C -> Prop) l m :
  Forall2 P l m -> Forall2 Q l m -> Forall2 (fun x y => P x y /\ Q x y) l m.
Proof. intros H. induction H; intros H2; inversion H2; subst; constructor; auto. Qed.

Lemma bij_m0 : pop_bijections LGM0_BIMOD get_bounded_m0pop_params get_unbounded_m0pop_params.
Proof. apply (acts_bijection _ _ _ wfc_LGM0_BIMOD acts_m0). Qed.
Lemma bij_m0_sats : pop_bijections LGM0_BIMOD_SATS get_bounded_m0pop_params_sats get_unbounded_m0pop_params_sats.
Proof. apply (acts_bijection _ _ _ wfc_LGM0_BIMOD_SATS acts_m0_sats). Qed.
Lemma bij_logtc : pop_bijections LOGTC_BIMOD get_bounded_logtc_params get_unbounded_logtc_params.
Proof. apply (acts_bijection _ _ _ wfc_LOGTC_BIMOD acts_logtc). Qed.
Lemma bij_early : pop_bijections EARLY_INDEX_BIMOD get_bounded_early_index_params get_unbounded_early_index_params.
Proof. apply (acts_bijection _ _ _ wfc_EARLY_INDEX_BIMOD acts_early). Qed.

Lemma pop_round_trip p : legal_pop p -> exists pre pa pb post u,
  p = (pre ++ pa ++ pb ++ post)%list /\
  shaped (c_names LA) pa /\ shaped (c_names LB) pb /\
  in_bounds (c_bdict LA) pa /\ in_bounds (c_bdict LB) pb /\
  get_diffmahpop_u_params_from_params p = Ok u /\ shaped POP_UNAMES u /\
  get_diffmahpop_params_from_u_params u =
    Ok (pre ++ combine (c_names LA) (values pb) ++ pb ++ post)%list.
Proof.
  intros [Hs Hl]. rewrite pop_bounds_names in Hs.
  destruct (to_u_eval p Hs) as (ps & us & Ec & Fp & Eu & Fu & Et).
  assert (Hnd : NoDup (fields (concat ps))).
  { rewrite Ec. unfold fields. rewrite Hs. apply pop_names_nodup. }
  rewrite pop_bounds_concat, <- Ec in Hl.
  apply (in_bounds_slices _ _ components_wf Fp Hnd) in Hl.
  assert (Su : shaped POP_UNAMES (concat us)).
  { unfold shaped. change (map fst) with (@fields R). rewrite (fields_concat c_unames _ _ Fu).
    symmetry. apply pop_unames_concat. }
  destruct (from_u_eval (concat us) Su) as (us' & qs & Ec' & Fu' & Eb & Fq & Ef).
  apply (slices_unique c_unames _ _ _ Fu' Fu) in Ec'. subst us'.
  destruct (nine _ _ (Forall2_and _ _ _ _ Fp Hl))
    as (p1 & p2 & p3 & p4 & p5 & p6 & p7 & p8 & p9 & -> & L1 & L2 & L3 & L4 & L5 & L6 & L7 & L8 & L9).
  clear Fp Hl.
  destruct (proj2 (bij_single _ wfc_TPCENS_FLEX) p1 L1) as (u1 & E1 & _ & B1).
  destruct (proj2 (bij_single _ wfc_TP_SATS) p2 L2) as (u2 & E2 & _ & B2).
  destruct (proj2 bij_m0 p3 L3) as (u3 & E3 & _ & B3).
  destruct (proj2 bij_m0_sats p4 L4) as (u4 & E4 & _ & B4).
  destruct (proj2 bij_logtc p5 L5) as (u5 & E5 & _ & B5).
  destruct (proj2 bij_early p6 L6) as (u6 & E6 & _ & B6).
  destruct (proj2 (bij_single _ wfc_FEC) p8 L8) as (u8 & E8 & _ & B8).
  destruct (proj2 (bij_single _ wfc_COV) p9 L9) as (u9 & E9 & _ & B9).
  destruct L7 as [S7 L7]. destruct (late_split p7 S7) as (pa & pb & -> & Sa & Sb).
  apply (late_legal_split _ _ Sa Sb) in L7 as [La Lb].
  destruct (late_roundtrip pa pb Sa Sb Lb) as (u7 & E7 & _ & B7).
  cbv [UNBOUNDERS combine] in Eu. cbn [mapM fst snd] in Eu.
  rewrite E1, E2, E3, E4, E5, E6, E7, E8, E9 in Eu. cbn [bind] in Eu. injection Eu as <-.
  cbv [BOUNDERS combine] in Eb. cbn [mapM fst snd] in Eb.
  rewrite B1, B2, B3, B4, B5, B6, B7, B8, B9 in Eb. cbn [bind] in Eb. injection Eb as <-.
  exists (p1 ++ p2 ++ p3 ++ p4 ++ p5 ++ p6)%list, pa, pb, (p8 ++ p9)%list, (concat [u1; u2; u3; u4; u5; u6; u7; u8; u9]).
  refine (conj _ (conj Sa (conj Sb (conj La (conj Lb (conj Et (conj Su _))))))).
  - subst p. cbn [concat]. rewrite app_nil_r, <- !app_assoc. reflexivity.
  - rewrite Ef. cbn [concat]. rewrite app_nil_r, <- !app_assoc. reflexivity.
Qed.

Lemma pop_u_round_trip u : shaped POP_UNAMES u -> exists pre ua ub post p,
  u = (pre ++ ua ++ ub ++ post)%list /\
  shaped (c_unames LA) ua /\ shaped (c_unames LB) ub /\
  get_diffmahpop_params_from_u_params u = Ok p /\ legal_pop p /\
  get_diffmahpop_u_params_from_params p =
    Ok (pre ++ combine (c_unames LA) (values ub) ++ ub ++ post)%list.
Proof.
  intros Hs.
  destruct (from_u_eval u Hs) as (us & ps & Ec & Fu & Eu & Fp & Et).
  assert (Sp : shaped POP_NAMES (concat ps)).
  { unfold shaped. change (map fst) with (@fields R). rewrite (fields_concat c_names _ _ Fp).
    symmetry. apply pop_names_concat. }
  destruct (to_u_eval (concat ps) Sp) as (ps' & qs & Ec' & Fp' & Eb & Fq & Ef).
  apply (slices_unique c_names _ _ _ Fp' Fp) in Ec'. subst ps'.
  assert (Hnd : NoDup (fields (concat ps))).
  { unfold fields. rewrite Sp. apply pop_names_nodup. }
  destruct (nine _ _ Fu)
    as (p1 & p2 & p3 & p4 & p5 & p6 & p7 & p8 & p9 & -> & L1 & L2 & L3 & L4 & L5 & L6 & L7 & L8 & L9).
  destruct (proj1 (bij_single _ wfc_TPCENS_FLEX) p1 L1) as (u1 & E1 & G1 & B1).
  destruct (proj1 (bij_single _ wfc_TP_SATS) p2 L2) as (u2 & E2 & G2 & B2).
  destruct (proj1 bij_m0 p3 L3) as (u3 & E3 & G3 & B3).
  destruct (proj1 bij_m0_sats p4 L4) as (u4 & E4 & G4 & B4).
  destruct (proj1 bij_logtc p5 L5) as (u5 & E5 & G5 & B5).
  destruct (proj1 bij_early p6 L6) as (u6 & E6 & G6 & B6).
  destruct (proj1 (bij_single _ wfc_FEC) p8 L8) as (u8 & E8 & G8 & B8).
  destruct (proj1 (bij_single _ wfc_COV) p9 L9) as (u9 & E9 & G9 & B9).
  destruct (late_usplit p7 L7) as (ua & ub & -> & Sa & Sb).
  destruct (late_uroundtrip ua ub Sa Sb) as (u7 & E7 & G7 & B7).
  cbv [BOUNDERS combine] in Eu. cbn [mapM fst snd] in Eu.
  rewrite E1, E2, E3, E4, E5, E6, E7, E8, E9 in Eu. cbn [bind] in Eu. injection Eu as <-.
  cbv [UNBOUNDERS combine] in Eb. cbn [mapM fst snd] in Eb.
  rewrite B1, B2, B3, B4, B5, B6, B7, B8, B9 in Eb. cbn [bind] in Eb. injection Eb as <-.
  exists (p1 ++ p2 ++ p3 ++ p4 ++ p5 ++ p6)%list, ua, ub, (p8 ++ p9)%list, (concat [u1; u2; u3; u4; u5; u6; u7; u8; u9]).
  refine (conj _ (conj Sa (conj Sb (conj Et (conj _ _))))).
  - subst u. cbn [concat]. rewrite app_nil_r, <- !app_assoc. reflexivity.
  - split; [now rewrite pop_bounds_names|]. rewrite pop_bounds_concat.
    apply (in_bounds_slices _ _ components_wf Fp Hnd). unfold COMPONENTS.
    destruct G1, G2, G3, G4, G5, G6, G7, G8, G9.
    repeat (apply Forall2_cons; [assumption|]). apply Forall2_nil.
  - rewrite Ef. cbn [concat]. rewrite app_nil_r, <- !app_assoc. reflexivity.
Qed.

(** ** Field by field *)

Lemma shaped3 {A} k1 k2 k3 (p : rec A) : shaped [k1; k2; k3] p ->
  exists v1 v2 v3, p = [(k1, v1); (k2, v2); (k3, v3)].
Proof.
  intros H. destruct p as [|[a x] [|[b y] [|[c z] [|]]]]; try discriminate.
  cbn in H. injection H as -> -> ->. eauto.
Qed.

Lemma has_unique {A} (p : rec A) k v w : NoDup (fields p) -> has p k v -> has p k w -> v = w.
Proof.
  intros Hnd H1 H2. apply (in_getattr p k v Hnd) in H1. apply (in_getattr p k w Hnd) in H2.
  rewrite H1 in H2. now injection H2.
Qed.

Definition NOT_ALPHA (k : string) : Prop := forall q, In q late_quantities -> k <> q ++ "_alpha".

Lemma alpha_replaced (pre pa pb post : rec R) :
  shaped (c_names LA) pa -> shaped (c_names LB) pb ->
  let p := (pre ++ pa ++ pb ++ post)%list in
  let p' := (pre ++ combine (c_names LA) (values pb) ++ pb ++ post)%list in
  NoDup (fields p) ->
  (forall k v, NOT_ALPHA k -> has p k v -> has p' k v) /\
  (forall q v, In q late_quantities -> has p (q ++ "_beta") v -> has p' (q ++ "_alpha") v) /\
  (p' = p <-> forall q v, In q late_quantities -> has p (q ++ "_beta") v -> has p (q ++ "_alpha") v).
Proof.
  intros Ha Hb p p' Hnd.
  change (c_names LA) with ["late_index_x0_alpha"; "late_index_ylo_alpha"; "late_index_yhi_alpha"] in Ha.
  change (c_names LB) with ["late_index_x0_beta"; "late_index_ylo_beta"; "late_index_yhi_beta"] in Hb.
  apply shaped3 in Ha as (a1 & a2 & a3 & ->). apply shaped3 in Hb as (b1 & b2 & b3 & ->).
  cbn in p'.
  assert (Hbeta : forall q v, In q late_quantities -> has p (q ++ "_beta") v ->
    (q = "late_index_x0" /\ v = b1) \/ (q = "late_index_ylo" /\ v = b2) \/ (q = "late_index_yhi" /\ v = b3)).
  { intros q v Hq Hv. destruct Hq as [<-|[<-|[<-|[]]]]; [left|right; left|right; right]; split; try reflexivity;
      apply (has_unique p _ _ _ Hnd Hv); unfold has, p; apply in_or_app; right; cbn; auto 8. }
  refine (conj _ (conj _ _)).
  - intros k v Hk Hv. unfold has, p, p' in *. apply in_app_or in Hv as [Hv|Hv]; [apply in_or_app; now left|].
    apply in_or_app. right. cbn in Hv.
    destruct Hv as [E|[E|[E|Hv]]].
    + exfalso. injection E as <- <-. apply (Hk "late_index_x0"); [cbn; tauto|reflexivity].
    + exfalso. injection E as <- <-. apply (Hk "late_index_ylo"); [cbn; tauto|reflexivity].
    + exfalso. injection E as <- <-. apply (Hk "late_index_yhi"); [cbn; tauto|reflexivity].
    + cbn. auto.
  - intros q v Hq Hv. unfold has, p'. apply in_or_app. right.
    destruct (Hbeta q v Hq Hv) as [[-> ->]|[[-> ->]|[-> ->]]]; cbn; tauto.
  - split.
    + intros E q v Hq Hv. rewrite <- E. unfold has, p'. apply in_or_app. right.
      destruct (Hbeta q v Hq Hv) as [[-> ->]|[[-> ->]|[-> ->]]]; cbn; tauto.
    + intros H. unfold p, p'. f_equal. cbn [app].
      assert (a1 = b1).
      { apply (has_unique p "late_index_x0_alpha" _ _ Hnd); [unfold has, p; apply in_or_app; right; cbn; tauto|].
        apply (H "late_index_x0" b1); [cbn; tauto|]. unfold has, p; apply in_or_app; right; cbn; tauto. }
      assert (a2 = b2).
      { apply (has_unique p "late_index_ylo_alpha" _ _ Hnd); [unfold has, p; apply in_or_app; right; cbn; tauto|].
        apply (H "late_index_ylo" b2); [cbn; tauto|]. unfold has, p; apply in_or_app; right; cbn; tauto. }
      assert (a3 = b3).
      { apply (has_unique p "late_index_yhi_alpha" _ _ Hnd); [unfold has, p; apply in_or_app; right; cbn; tauto|].
        apply (H "late_index_yhi" b3); [cbn; tauto|]. unfold has, p; apply in_or_app; right; cbn; tauto. }
      subst. reflexivity.
Qed.

Lemma ualpha_replaced (pre ua ub post : rec R) :
  shaped (c_unames LA) ua -> shaped (c_unames LB) ub ->
  let u := (pre ++ ua ++ ub ++ post)%list in
  let u' := (pre ++ combine (c_unames LA) (values ub) ++ ub ++ post)%list in
  NoDup (fields u) ->
  (forall k v, (forall q, In q late_quantities -> k <> "u_" ++ q ++ "_alpha") -> has u k v -> has u' k v) /\
  (forall q v, In q late_quantities -> has u ("u_" ++ q ++ "_beta") v -> has u' ("u_" ++ q ++ "_alpha") v).
Proof.
  intros Ha Hb p p' Hnd.
  change (c_unames LA) with ["u_late_index_x0_alpha"; "u_late_index_ylo_alpha"; "u_late_index_yhi_alpha"] in Ha.
  change (c_unames LB) with ["u_late_index_x0_beta"; "u_late_index_ylo_beta"; "u_late_index_yhi_beta"] in Hb.
  apply shaped3 in Ha as (a1 & a2 & a3 & ->). apply shaped3 in Hb as (b1 & b2 & b3 & ->).
  cbn in p'.
  split.
  - intros k v Hk Hv. unfold has, p, p' in *. apply in_app_or in Hv as [Hv|Hv]; [apply in_or_app; now left|].
    apply in_or_app. right. cbn in Hv.
    destruct Hv as [E|[E|[E|Hv]]].
    + exfalso. injection E as <- <-. apply (Hk "late_index_x0"); [cbn; tauto|reflexivity].
    + exfalso. injection E as <- <-. apply (Hk "late_index_ylo"); [cbn; tauto|reflexivity].
    + exfalso. injection E as <- <-. apply (Hk "late_index_yhi"); [cbn; tauto|reflexivity].
    + cbn. auto.
  - intros q v Hq Hv.
    assert (Hbeta : (q = "late_index_x0" /\ v = b1) \/ (q = "late_index_ylo" /\ v = b2) \/ (q = "late_index_yhi" /\ v = b3)).
    { destruct Hq as [<-|[<-|[<-|[]]]]; [left|right; left|right; right]; split; try reflexivity;
      apply (has_unique p _ _ _ Hnd Hv); unfold has, p; apply in_or_app; right; cbn; auto 8. }
    unfold has, p'. apply in_or_app. right.
    destruct Hbeta as [[-> ->]|[[-> ->]|[-> ->]]]; cbn; tauto.
Qed.

Lemma legal_pop_nodup p : legal_pop p -> NoDup (fields p).
Proof. intros [Hs _]. unfold fields. rewrite Hs, pop_bounds_names. apply pop_names_nodup. Qed.

Lemma unbounded_pop_shaped u : unbounded_pop u <-> shaped POP_UNAMES u.
Proof. unfold unbounded_pop. rewrite pop_bounds_names. reflexivity. Qed.

(** ** Varied parameters *)

Lemma make_kw_filter {A} (f : string * A -> bool) (p : rec A) : NoDup (fields p) ->
  make_kw (map fst (filter f p)) (filter f p) = Ok (filter f p).
Proof.
  intros H. apply make_kw_self. unfold fields in *. induction p as [|a p IH]; cbn; [constructor|].
  cbn in H. inversion H as [|? ? H1 H2]; subst. destruct (f a); [|auto]. cbn. constructor; [|auto].
  intros Hin. apply H1. apply in_map_iff in Hin as (b & <- & Hb). apply filter_In in Hb as [Hb _].
  now apply in_map.
Qed.

Lemma varied_spec (all dflt : rec R) excl : NoDup (fields all) -> fields dflt = fields all ->
  exists varied r, get_varied_params_by_exclusion all excl = Ok varied /\
    get_all_diffmahpop_params_from_varied varied dflt = Ok r /\
    (forall k v, has varied k v <-> has all k v /\ ~ In k excl) /\
    fields r = fields all /\
    (forall k v, In k excl -> has dflt k v -> has r k v) /\
    (forall k v, ~ In k excl -> has all k v -> has r k v).
Proof.
  intros Hnd Hf. unfold get_varied_params_by_exclusion. rewrite make_kw_filter by exact Hnd.
  set (f := fun kv : string * R => _). exists (filter f all).
  assert (Hv : forall k v, has (filter f all) k v <-> has all k v /\ ~ In k excl).
  { intros k v. unfold has. rewrite filter_In. unfold f. cbn [fst]. split; intros [H1 H2]; split; try exact H1.
    - intros Hin. apply negb_true_iff in H2. assert (existsb (String.eqb k) excl = true).
      { apply existsb_exists. exists k. split; [exact Hin|apply String.eqb_refl]. } congruence.
    - apply negb_true_iff. apply not_true_iff_false. intros E. apply existsb_exists in E as (k' & Hin & E).
      apply String.eqb_eq in E. subst. tauto. }
  assert (Hndv : NoDup (fields (filter f all))).
  { clear - Hnd. unfold fields in *. induction all as [|a p IH]; cbn; [constructor|].
    cbn in Hnd. inversion Hnd as [|? ? H1 H2]; subst. destruct (f a); [|auto]. cbn. constructor; [|auto].
    intros Hin. apply H1. apply in_map_iff in Hin as (b & <- & Hb). apply filter_In in Hb as [Hb _].
    now apply in_map. }
  destruct (replace_ok dflt (filter f all)) as (r & E & Er & Eg).
  { intros k Hk. rewrite Hf. unfold fields in *. apply in_map_iff in Hk as (b & <- & Hb).
    apply filter_In in Hb as [Hb _]. now apply in_map. }
  exists r. unfold get_all_diffmahpop_params_from_varied.
  refine (conj eq_refl (conj E (conj Hv (conj _ (conj _ _))))).
  - now rewrite Er.
  - intros k v Hin Hd. apply getattr_in. rewrite Eg.
    rewrite getattr_not_in.
    + apply in_getattr; [now rewrite Hf|exact Hd].
    + intros Hk. apply in_fields_getattr in Hk as (w & Hw). apply getattr_in in Hw. apply Hv in Hw as [_ Hw]. tauto.
  - intros k v Hin Hd. apply getattr_in. rewrite Eg.
    rewrite (in_getattr _ k v Hndv); [reflexivity|]. apply Hv. tauto.
Qed.

(** ** Routing *)

Lemma route_unique {A} (p : rec A) ps k v : NoDup (fields p) -> concat ps = p -> has p k v ->
  exists! i, exists q, nth_error ps i = Some q /\ has q k v.
Proof.
  intros Hnd <-. induction ps as [|q ps IH]; intros Hv; [destruct Hv|].
  cbn in Hnd, Hv. unfold fields in Hnd. rewrite map_app in Hnd.
  assert (Hdis : forall k, In k (map fst q) -> In k (map fst (concat ps)) -> False).
  { clear - Hnd. induction (map fst q) as [|a m IHm]; [intros ? []|]. inversion Hnd as [|? ? H1 H2]; subst.
    intros k [->|Hk] H; [|apply (IHm H2 k Hk H)]. apply H1. apply in_or_app. now right. }
  assert (Hnd2 : NoDup (map fst (concat ps))).
  { clear - Hnd. induction (map fst q); [exact Hnd|]. inversion Hnd; auto. }
  assert (Hsub : forall i q', nth_error ps i = Some q' -> has q' k v -> In k (map fst (concat ps))).
  { intros i q' Hi Hq. apply nth_error_In in Hi. apply (in_map fst _ (k, v)).
    apply in_concat. exists q'. auto. }
  apply in_app_or in Hv as [Hv|Hv].
  - exists 0%nat. split; [exists q; auto|]. intros [|i] (q' & Hi & Hq); [reflexivity|]. exfalso.
    apply (Hdis k); [apply (in_map fst) in Hv; exact Hv|apply (Hsub i q' Hi Hq)].
  - destruct (IH Hnd2 Hv) as (i & (q' & Hi & Hq) & Hu). exists (Datatypes.S i). split; [exists q'; auto|].
    intros [|j] (q'' & Hj & Hq'').
    + exfalso. cbn in Hj. injection Hj as <-. apply (Hdis k); [apply (in_map fst) in Hq''; exact Hq''|].
      apply (in_map fst) in Hv. exact Hv.
    + f_equal. apply Hu. exists q''. auto.
Qed.

Lemma pdict_concat : DEFAULT_DIFFMAHPOP_PDICT = flat_map c_pdict COMPONENTS.
Proof.
  unfold DEFAULT_DIFFMAHPOP_PDICT.
  assert (H : forall cs d, fold_left (fun acc c => dict_update acc (c_pdict c)) cs d = fold_left dict_update (map c_pdict cs) d).
  { induction cs as [|c cs IH]; intros d; cbn; [reflexivity|apply IH]. }
  rewrite H. rewrite concat_dicts.
  - cbn [app]. now rewrite <- flat_map_concat_map.
  - cbn [app]. rewrite <- flat_map_concat_map. check_names.
Qed.

Lemma pdict_flat : flat_map c_pdict COMPONENTS = flat_map c_pdict
    [ TPCENS_FLEX; TP_SATS;
      LGM0_C0_EARLY; LGM0_C1_EARLY; LGM0_C0_LATE; LGM0_C1_LATE;
      LGM0_C0_EARLY_SATS; LGM0_C1_EARLY_SATS; LGM0_C0_LATE_SATS; LGM0_C1_LATE_SATS;
      LOGTC_EARLY; LOGTC_LATE; EARLY_INDEX_ALPHA; EARLY_INDEX_BETA;
      LATE_INDEX_ALPHA; LATE_INDEX_BETA; FEC; COV ].
Proof.
  unfold COMPONENTS. cbn [flat_map].
  rewrite (proj1 cat_LGM0_BIMOD), (proj1 cat_LGM0_BIMOD_SATS), (proj1 cat_LOGTC_BIMOD),
    (proj1 cat_EARLY_INDEX_BIMOD), (proj1 cat_LATE_INDEX_BIMOD).
  cbn [flat_map]. rewrite !app_nil_r, <- !app_assoc. reflexivity.
Qed.

Lemma in_bounds_shaped bs (p : rec R) : NoDup (map fst bs) -> map fst p = map fst bs ->
  in_bounds bs p <-> Forall2 inside (values p) (map snd bs).
Proof.
  intros Hnd Hs.
  assert (E1 : bs = combine (map fst bs) (map snd bs)).
  { clear. induction bs as [|[k b] bs IH]; cbn; [reflexivity|]. f_equal. exact IH. }
  assert (E2 : p = combine (map fst bs) (values p)) by (apply shaped_combine; exact Hs).
  rewrite E1 at 1. rewrite E2 at 1. apply in_bounds_combine.
  - exact Hnd.
  - now rewrite !map_length.
  - rewrite <- Hs. unfold values. now rewrite !map_length.
Qed.

Lemma rec_const_R p : rec_const (A:=R) p = p.
Proof. unfold rec_const. induction p as [|[k v] p IH]; [reflexivity|]. cbn. f_equal. exact IH. Qed.

Lemma default_legal : exists d : rec R, DEFAULT_DIFFMAHPOP_PARAMS = Ok d /\ legal_pop d.
Proof.
  exists DEFAULT_DIFFMAHPOP_PDICT. split.
  - unfold DEFAULT_DIFFMAHPOP_PARAMS. rewrite <- pdict_names.
    rewrite make_kw_self by (rewrite pdict_names; apply pop_names_nodup). cbn [bind].
    now rewrite rec_const_R.
  - split.
    + unfold shaped. rewrite pop_bounds_names. reflexivity.
    + apply in_bounds_shaped.
      * rewrite pop_bounds_names. apply pop_names_nodup.
      * rewrite pop_bounds_names. reflexivity.
      * rewrite pdict_concat, pdict_flat. cbn. repeat constructor; unfold inside; cbn; lra.
Qed.

(** A legal set whose alpha and beta fields differ. *)
Definition ALT_PDICT : rec R :=
  map (fun kv => if String.eqb (fst kv) "late_index_x0_alpha" then (fst kv, 12) else kv)
    (flat_map c_pdict
    [ TPCENS_FLEX; TP_SATS;
      LGM0_C0_EARLY; LGM0_C1_EARLY; LGM0_C0_LATE; LGM0_C1_LATE;
      LGM0_C0_EARLY_SATS; LGM0_C1_EARLY_SATS; LGM0_C0_LATE_SATS; LGM0_C1_LATE_SATS;
      LOGTC_EARLY; LOGTC_LATE; EARLY_INDEX_ALPHA; EARLY_INDEX_BETA;
      LATE_INDEX_ALPHA; LATE_INDEX_BETA; FEC; COV ]).

Lemma alt_legal : legal_pop ALT_PDICT.
Proof.
  split.
  - vm_compute. reflexivity.
  - apply in_bounds_shaped.
    + rewrite pop_bounds_names. apply pop_names_nodup.
    + vm_compute. reflexivity.
    + cbn. repeat constructor; unfold inside; cbn; lra.
Qed.

Lemma alt_values : has ALT_PDICT "late_index_x0_alpha" 12 /\ has ALT_PDICT "late_index_x0_beta" (11567 / 1000).
Proof.
  assert (Hnd : NoDup (fields ALT_PDICT)) by exact (legal_pop_nodup _ alt_legal).
  split; apply getattr_in; unfold ALT_PDICT; cbn; reflexivity.
Qed.
