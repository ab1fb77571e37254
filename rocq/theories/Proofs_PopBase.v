(** Lemmas on namedtuples and on the bounding code of the components. *)

From Coq Require Import Reals String List Bool Arith Lia Lra.
From Verif Require Import Model_Num Model_Base Model_Kernels Model_PopBase Model_PopData
  Model_PopParams Proofs_Kernels Spec_Pop.
Import ListNotations.
Local Open Scope R_scope.
Local Open Scope string_scope.

Lemma eqb_sym_str a b : String.eqb a b = String.eqb b a.
Proof. apply String.eqb_sym. Qed.

Section Generic.
  Context {A : Type}.
  Implicit Types p q : rec A.

  Lemma getattr_in p k v : getattr p k = Ok v -> In (k, v) p.
  Proof.
    induction p as [|[k' v'] p IH]; cbn; [discriminate|].
    destruct (String.eqb_spec k' k) as [->|Hne]; intros H.
    - injection H as <-. now left.
    - right. now apply IH.
  Qed.

  Lemma in_getattr p k v : NoDup (fields p) -> In (k, v) p -> getattr p k = Ok v.
  Proof.
    induction p as [|[k' v'] p IH]; cbn; [tauto|].
    intros Hnd Hin. inversion Hnd as [|? ? Hni Hnd']; subst.
    destruct Hin as [H|H].
    - injection H as -> ->. now rewrite String.eqb_refl.
    - destruct (String.eqb_spec k' k) as [->|Hne].
      + exfalso. apply Hni. apply (in_map fst _ (k, v)) in H. exact H.
      + now apply IH.
  Qed.

  Lemma getattr_not_in p k : ~ In k (fields p) -> getattr p k = Err AttributeError.
  Proof.
    induction p as [|[k' v'] p IH]; cbn; [reflexivity|]. intros H.
    destruct (String.eqb_spec k' k) as [->|Hne]; [tauto|]. apply IH. tauto.
  Qed.

  Lemma in_fields_getattr p k : In k (fields p) -> exists v, getattr p k = Ok v.
  Proof.
    induction p as [|[k' v'] p IH]; cbn; [tauto|]. intros [->|H].
    - rewrite String.eqb_refl. eauto.
    - destruct (String.eqb k' k); eauto.
  Qed.

  Lemma getattrs_cons_other p k v ks : ~ In k ks ->
    getattrs ((k, v) :: p) ks = getattrs p ks.
  Proof.
    induction ks as [|a ks IH]; cbn; [reflexivity|]. intros H.
    destruct (String.eqb_spec k a) as [->|Hne]; [tauto|].
    rewrite IH by tauto. reflexivity.
  Qed.

  Lemma getattrs_self p : NoDup (fields p) -> getattrs p (fields p) = Ok (values p).
  Proof.
    induction p as [|[k v] p IH]; [reflexivity|]. cbn [fields map fst]. intros Hnd.
    inversion Hnd as [|? ? Hni Hnd']; subst.
    change (map fst p) with (fields p) in *.
    cbn [getattrs getattr]. rewrite String.eqb_refl. cbn [bind].
    rewrite getattrs_cons_other by exact Hni. rewrite IH by exact Hnd'. reflexivity.
  Qed.

  Lemma getattrs_app p ks1 ks2 v1 v2 :
    getattrs p ks1 = Ok v1 -> getattrs p ks2 = Ok v2 -> getattrs p (ks1 ++ ks2) = Ok (v1 ++ v2)%list.
  Proof.
    revert v1. induction ks1 as [|k ks IH]; cbn; intros v1 H1 H2.
    - injection H1 as <-. exact H2.
    - destruct (getattr p k) as [v|]; [|discriminate]. cbn in *.
      destruct (getattrs p ks) as [vs|]; [|discriminate]. cbn in *.
      injection H1 as <-. rewrite (IH vs eq_refl H2). reflexivity.
  Qed.

  Lemma getattrs_length p ks vs : getattrs p ks = Ok vs -> List.length vs = List.length ks.
  Proof.
    revert vs. induction ks as [|k ks IH]; cbn; intros vs H.
    - injection H as <-. reflexivity.
    - destruct (getattr p k) as [v|]; [|discriminate]. cbn in H.
      destruct (getattrs p ks) as [us|]; [|discriminate]. cbn in H.
      injection H as <-. cbn. now rewrite (IH us eq_refl).
  Qed.

  (** Reading consecutive fields of a concatenation. *)
  Lemma getattrs_middle p q r : NoDup (fields (p ++ q ++ r)%list) ->
    getattrs (p ++ q ++ r)%list (fields q) = Ok (values q).
  Proof.
    induction p as [|[k v] p IH]; cbn [List.app fields map fst].
    - intros Hnd. revert Hnd. generalize r. clear.
      induction q as [|[k v] q IH]; intros r Hnd; [reflexivity|].
      cbn [List.app fields map fst] in *. inversion Hnd as [|? ? Hni Hnd']; subst.
      cbn [getattrs getattr]. rewrite String.eqb_refl. cbn [bind].
      change (map fst q) with (fields q).
      rewrite getattrs_cons_other.
      + rewrite IH by exact Hnd'. reflexivity.
      + intros H. apply Hni. unfold fields in *. rewrite map_app. apply in_or_app. now left.
    - intros Hnd. inversion Hnd as [|? ? Hni Hnd']; subst.
      change (map fst q) with (fields q). rewrite getattrs_cons_other.
      + apply IH. exact Hnd'.
      + intros H. apply Hni. unfold fields in *. rewrite !map_app. apply in_or_app. right.
        apply in_or_app. now left.
  Qed.

  Lemma combine_fields_values p : combine (fields p) (values p) = p.
  Proof. induction p as [|[k v] p IH]; cbn; [reflexivity|]. f_equal. exact IH. Qed.

  Lemma fields_combine ks (vs : list A) : List.length ks = List.length vs ->
    fields (combine ks vs) = ks.
  Proof.
    revert vs. induction ks as [|k ks IH]; intros [|v vs]; cbn; try discriminate; [reflexivity|].
    intros H. f_equal. apply IH. lia.
  Qed.

  Lemma values_combine ks (vs : list A) : List.length ks = List.length vs ->
    values (combine ks vs) = vs.
  Proof.
    revert vs. induction ks as [|k ks IH]; intros [|v vs]; cbn; try discriminate; [reflexivity|].
    intros H. f_equal. apply IH. lia.
  Qed.

  Lemma make_ok ks (vs : list A) : List.length ks = List.length vs -> make ks vs = Ok (combine ks vs).
  Proof. intros H. unfold make. now rewrite H, Nat.eqb_refl. Qed.

  Lemma fields_length p : List.length (fields p) = List.length p.
  Proof. apply map_length. Qed.
  Lemma values_length p : List.length (values p) = List.length p.
  Proof. apply map_length. Qed.

  Lemma make_self p : make (fields p) (values p) = Ok p.
  Proof.
    rewrite make_ok; [|now rewrite fields_length, values_length]. now rewrite combine_fields_values.
  Qed.

  Lemma make_kw_self p : NoDup (fields p) -> make_kw (fields p) p = Ok p.
  Proof.
    intros H. unfold make_kw.
    replace (forallb _ (map fst p)) with true.
    - rewrite getattrs_self by exact H. apply make_self.
    - symmetry. apply forallb_forall. intros k Hk. apply existsb_exists. exists k.
      split; [exact Hk|apply String.eqb_refl].
  Qed.

  Lemma has_key_spec p k : has_key p k = true <-> In k (fields p).
  Proof.
    unfold has_key. rewrite existsb_exists. split.
    - intros ([k' v] & Hin & He). cbn in He. apply String.eqb_eq in He. subst.
      apply (in_map fst) in Hin. exact Hin.
    - intros H. apply in_map_iff in H as ([k' v] & <- & Hin). exists (k', v).
      split; [exact Hin|]. apply String.eqb_refl.
  Qed.

  (** [_replace] *)
  Lemma replace_ok p q : (forall k, In k (fields q) -> In k (fields p)) ->
    exists r, replace p q = Ok r /\ fields r = fields p /\
      forall k, getattr r k = match getattr q k with Ok v => Ok v | Err _ => getattr p k end.
  Proof.
    intros H. unfold replace.
    replace (forallb _ (fields q)) with true.
    2:{ symmetry. apply forallb_forall. intros k Hk. apply has_key_spec. auto. }
    eexists. split; [reflexivity|]. split.
    { unfold fields. rewrite map_map. apply map_ext. reflexivity. }
    intros k.
    assert (G : forall p', getattr
        (map (fun kv => (fst kv, match getattr q (fst kv) with Ok v => v | Err _ => snd kv end)) p') k
        = match getattr q k with
          | Ok v => if has_key p' k then Ok v else getattr p' k
          | Err _ => getattr p' k end).
    { induction p' as [|[k' v'] p' IH]; cbn.
      - destruct (getattr q k) as [v|]; reflexivity.
      - destruct (String.eqb_spec k' k) as [->|Hne].
        + destruct (getattr q k) as [v|]; reflexivity.
        + rewrite IH. unfold has_key. destruct (getattr q k) as [v|]; reflexivity. }
    rewrite G. destruct (getattr q k) as [v|] eqn:E; [|reflexivity].
    replace (has_key p k) with true; [reflexivity|]. symmetry. apply has_key_spec, H.
    apply getattr_in in E. apply (in_map fst) in E. exact E.
  Qed.
End Generic.

(** Two namedtuples with the same distinct names and the same values are equal. *)
Lemma rec_ext {A} (p q : rec A) : NoDup (fields p) -> fields p = fields q ->
  (forall k, In k (fields p) -> getattr p k = getattr q k) -> p = q.
Proof.
  revert q. induction p as [|[k v] p IH]; intros [|[k' v'] q]; cbn; try discriminate; [reflexivity|].
  intros Hnd He Hg. injection He as <- He. inversion Hnd as [|? ? Hni Hnd']; subst.
  pose proof (Hg k (or_introl eq_refl)) as H0. rewrite String.eqb_refl in H0. injection H0 as <-.
  f_equal. apply IH; [exact Hnd'|exact He|].
  intros j Hj. specialize (Hg j (or_intror Hj)).
  destruct (String.eqb_spec k j) as [->|Hne]; [tauto|exact Hg].
Qed.

Lemma uname_inj a b : uname a = uname b -> a = b.
Proof. unfold uname. cbn. intros H. now injection H. Qed.

Lemma NoDup_unames ks : NoDup ks -> NoDup (map uname ks).
Proof.
  induction 1 as [|k ks Hni Hnd IH]; cbn; constructor; [|exact IH].
  intros H. apply in_map_iff in H as (k' & He & Hin). apply uname_inj in He. subst. tauto.
Qed.

(** ** Bounding lists of values *)

Definition bmap (us : list R) (bs : list (R * R)) : list R :=
  map (fun ub => get_bounded_param (fst ub) (snd ub)) (combine us bs).
Definition umap (ps : list R) (bs : list (R * R)) : list R :=
  map (fun ub => get_unbounded_param (fst ub) (snd ub)) (combine ps bs).

Definition proper (b : R * R) : Prop := fst b < snd b.
Definition inside (v : R) (b : R * R) : Prop := fst b < v < snd b.

Lemma bmap_length us bs : List.length us = List.length bs -> List.length (bmap us bs) = List.length bs.
Proof. intros H. unfold bmap. rewrite map_length, combine_length. lia. Qed.
Lemma umap_length us bs : List.length us = List.length bs -> List.length (umap us bs) = List.length bs.
Proof. intros H. unfold umap. rewrite map_length, combine_length. lia. Qed.

Lemma bounded_param_inside u b : proper b -> inside (get_bounded_param u b) b.
Proof. destruct b as [lo hi]. unfold proper, inside. cbn. intros H. apply (bounded_param_between u lo hi H). Qed.

Lemma bmap_inside us bs : List.length us = List.length bs -> Forall proper bs -> Forall2 inside (bmap us bs) bs.
Proof.
  revert us. induction bs as [|b bs IH]; intros [|u us]; cbn; try discriminate; [constructor|].
  intros H Hp. inversion Hp; subst. constructor; [now apply bounded_param_inside|].
  apply IH; [lia|assumption].
Qed.

Lemma umap_bmap us bs : List.length us = List.length bs -> Forall proper bs -> umap (bmap us bs) bs = us.
Proof.
  revert us. induction bs as [|b bs IH]; intros [|u us]; cbn; try discriminate; [reflexivity|].
  intros H Hp. inversion Hp as [|? ? Hb Hbs]; subst. f_equal.
  - destruct b as [lo hi]. exact (unbounded_bounded_param u lo hi Hb).
  - apply IH; [lia|assumption].
Qed.

Lemma bmap_umap ps bs : Forall2 inside ps bs -> bmap (umap ps bs) bs = ps.
Proof.
  induction 1 as [|p b ps bs Hi Hf IH]; [reflexivity|]. cbn. f_equal; [|exact IH].
  destruct b as [lo hi]. exact (bounded_unbounded_param p lo hi Hi).
Qed.

Lemma bounded_param_mono u v b : proper b ->
  (u <= v <-> get_bounded_param u b <= get_bounded_param v b).
Proof.
  destruct b as [lo hi]. unfold proper, get_bounded_param. cbn [fst snd].
  rewrite !sigmoid_R. unfold K_BOUNDING. cbn [nconst Num_R nadd nmul]. intros H.
  set (m := 1 / 2 * (lo + hi)).
  assert (L : forall a c, a <= c -> logistic a <= logistic c).
  { intros a c Hac. unfold logistic. apply Rinv_le_contravar.
    - pose proof (exp_pos (- c)). lra.
    - destruct Hac as [Hac| ->]; [|lra]. pose proof (exp_increasing (- c) (- a)). lra. }
  assert (L' : forall a c, a < c -> logistic a < logistic c).
  { intros a c Hac. unfold logistic. apply Rinv_lt_contravar.
    - pose proof (exp_pos (- c)). pose proof (exp_pos (- a)). nra.
    - pose proof (exp_increasing (- c) (- a)). lra. }
  split; intros Hle.
  - pose proof (L (1 / 10 * (u - m)) (1 / 10 * (v - m)) ltac:(lra)) as HL.
    pose proof (Rmult_le_compat_l (hi - lo) _ _ ltac:(lra) HL). lra.
  - destruct (Rle_dec u v) as [|Hn]; [assumption|]. exfalso.
    pose proof (L' (1 / 10 * (v - m)) (1 / 10 * (u - m)) ltac:(lra)) as HL.
    pose proof (Rmult_lt_compat_l (hi - lo) _ _ ltac:(lra) HL). lra.
Qed.

(** ** Well-formed components *)

Definition wfc (c : component) : Prop :=
  NoDup (c_names c) /\ map fst (c_bdict c) = c_names c /\ Forall proper (map snd (c_bdict c)).

Definition bnds (c : component) : list (R * R) := map snd (c_bdict c).

Lemma wfc_pbounds c : wfc c -> c_pbounds c = Ok (c_bdict c).
Proof.
  intros (Hnd & Hf & _). unfold c_pbounds. rewrite <- Hf.
  apply (make_kw_self (c_bdict c)). unfold fields. now rewrite Hf.
Qed.

Lemma wfc_bnds_length c : wfc c -> List.length (bnds c) = List.length (c_names c).
Proof. intros (_ & Hf & _). unfold bnds. rewrite <- Hf. now rewrite !map_length. Qed.

Lemma wfc_unames_nodup c : wfc c -> NoDup (c_unames c).
Proof. intros (Hnd & _). now apply NoDup_unames. Qed.

(** The bounding function of a component computes [bmap]. *)
Lemma get_bounded_eval c (u : rec R) us : wfc c -> getattrs u (c_unames c) = Ok us ->
  get_bounded_params c u = Ok (combine (c_names c) (bmap us (bnds c))).
Proof.
  intros Hw Hg. unfold get_bounded_params. rewrite Hg. cbn [bind].
  rewrite wfc_pbounds by exact Hw. cbn [bind].
  pose proof (getattrs_length _ _ _ Hg) as Hl. unfold c_unames in Hl. rewrite map_length in Hl.
  pose proof (wfc_bnds_length c Hw) as Hb.
  unfold vmap2. replace (List.length us =? List.length (values (c_bdict c)))%nat with true.
  2:{ symmetry. apply Nat.eqb_eq. unfold values. unfold bnds in Hb. lia. }
  cbn [bind]. apply make_ok. fold (bmap us (bnds c)). rewrite bmap_length; lia.
Qed.

Lemma get_unbounded_eval c (p : rec R) ps : wfc c -> getattrs p (c_names c) = Ok ps ->
  get_unbounded_params c p = Ok (combine (c_unames c) (umap ps (bnds c))).
Proof.
  intros Hw Hg. unfold get_unbounded_params. rewrite Hg. cbn [bind].
  rewrite wfc_pbounds by exact Hw. cbn [bind].
  pose proof (getattrs_length _ _ _ Hg) as Hl.
  pose proof (wfc_bnds_length c Hw) as Hb.
  unfold vmap2. replace (List.length ps =? List.length (values (c_bdict c)))%nat with true.
  2:{ symmetry. apply Nat.eqb_eq. unfold values. unfold bnds in Hb. lia. }
  cbn [bind]. apply make_ok. fold (umap ps (bnds c)). unfold c_unames. rewrite map_length, umap_length; lia.
Qed.

(** Legality in terms of the list of values. *)
Lemma in_bounds_combine names bs ps : NoDup names ->
  List.length names = List.length bs -> List.length names = List.length ps ->
  in_bounds (combine names bs) (combine names ps) <-> Forall2 inside ps bs.
Proof.
  revert bs ps. induction names as [|k names IH]; intros [|b bs] [|p ps]; cbn; try discriminate.
  - intros. split; [constructor|]. intros _ k lo hi [].
  - intros Hnd Hb Hp. inversion Hnd as [|? ? Hni Hnd']; subst.
    specialize (IH bs ps Hnd' ltac:(lia) ltac:(lia)).
    assert (HN : forall (l : list (R * R)) v, In (k, v) (combine names l) -> False).
    { intros l v Hin. apply Hni. eapply in_combine_l. exact Hin. }
    assert (HN' : forall (l : list R) v, In (k, v) (combine names l) -> False).
    { intros l v Hin. apply Hni. eapply in_combine_l. exact Hin. }
    split.
    + intros H. constructor.
      * destruct b as [lo hi]. destruct (H k lo hi (or_introl eq_refl)) as (v & Hv & Hi).
        destruct Hv as [Hv|Hv]; [injection Hv as ->; exact Hi|]. destruct (HN' _ _ Hv).
      * apply IH. intros j lo hi Hin. destruct (H j lo hi (or_intror Hin)) as (v & Hv & Hi).
        exists v. split; [|exact Hi]. destruct Hv as [Hv|Hv]; [|exact Hv].
        injection Hv as -> ->. destruct (HN _ _ Hin).
    + intros H. inversion H as [|? ? ? ? Hi Hf]; subst. intros j lo hi Hin.
      destruct Hin as [Hin|Hin].
      * injection Hin as -> ->. exists p. split; [now left|exact Hi].
      * destruct (proj2 IH Hf j lo hi Hin) as (v & Hv & Hi'). exists v. split; [now right|exact Hi'].
Qed.

Lemma shaped_combine {A} names (p : rec A) : shaped names p -> p = combine names (values p).
Proof. intros H. unfold shaped in H. rewrite <- H. symmetry. apply combine_fields_values. Qed.

Lemma bdict_combine c : wfc c -> c_bdict c = combine (c_names c) (bnds c).
Proof.
  intros (_ & Hf & _). rewrite <- Hf. symmetry. apply (combine_fields_values (c_bdict c)).
Qed.

Lemma shaped_length {A} names (p : rec A) : shaped names p -> List.length (values p) = List.length names.
Proof. intros H. unfold shaped in H. rewrite <- H. unfold values. now rewrite !map_length. Qed.

Lemma legal_values c (p : rec R) : wfc c -> shaped (c_names c) p ->
  (in_bounds (c_bdict c) p <-> Forall2 inside (values p) (bnds c)).
Proof.
  intros Hw Hs. rewrite (bdict_combine c Hw). rewrite (shaped_combine _ p Hs) at 1.
  pose proof (shaped_length _ _ Hs) as Hl. pose proof (wfc_bnds_length c Hw) as Hb.
  apply in_bounds_combine; [apply Hw|lia|lia].
Qed.

(** What a bounding pair must satisfy: it acts on the values by [bmap] and
    [umap]. *)
Definition acts (c : component) (b ub : rec R -> res (rec R)) : Prop :=
  (forall u, shaped (c_unames c) u -> b u = Ok (combine (c_names c) (bmap (values u) (bnds c)))) /\
  (forall p, shaped (c_names c) p -> ub p = Ok (combine (c_unames c) (umap (values p) (bnds c)))).

Lemma acts_single c : wfc c -> acts c (get_bounded_params c) (get_unbounded_params c).
Proof.
  intros Hw. split.
  - intros u Hs. apply get_bounded_eval; [exact Hw|]. unfold shaped in Hs. rewrite <- Hs.
    apply getattrs_self. unfold fields. rewrite Hs. now apply wfc_unames_nodup.
  - intros p Hs. apply get_unbounded_eval; [exact Hw|]. unfold shaped in Hs. rewrite <- Hs.
    apply getattrs_self. unfold fields. rewrite Hs. apply Hw.
Qed.

(** ** Consequences of [acts] *)

Lemma acts_bijection c b ub : wfc c -> acts c b ub ->
  (forall u, unbounded_for c u -> exists p, b u = Ok p /\ legal_for c p /\ ub p = Ok u) /\
  (forall p, legal_for c p -> exists u, ub p = Ok u /\ unbounded_for c u /\ b u = Ok p).
Proof.
  intros Hw [Hb Hu]. pose proof (wfc_bnds_length c Hw) as Hl.
  assert (Hlu : List.length (c_unames c) = List.length (c_names c)) by apply map_length.
  split.
  - intros u Hs. change (shaped (c_unames c) u) in Hs.
    pose proof (shaped_length _ _ Hs) as Hlv.
    exists (combine (c_names c) (bmap (values u) (bnds c))).
    assert (HL : List.length (bmap (values u) (bnds c)) = List.length (c_names c)).
    { rewrite bmap_length; lia. }
    assert (HS : shaped (c_names c) (combine (c_names c) (bmap (values u) (bnds c)))).
    { apply (fields_combine (c_names c)). lia. }
    refine (conj _ (conj (conj HS _) _)).
    + now apply Hb.
    + apply legal_values; [exact Hw|exact HS|].
      rewrite values_combine by lia. apply bmap_inside; [lia|apply Hw].
    + rewrite Hu by exact HS. rewrite values_combine by lia.
      rewrite umap_bmap; [|lia|apply Hw]. f_equal. symmetry. now apply shaped_combine.
  - intros p [HS Hi]. change (shaped (c_names c) p) in HS.
    pose proof (shaped_length _ _ HS) as Hlv.
    assert (HL : List.length (umap (values p) (bnds c)) = List.length (c_unames c)).
    { rewrite umap_length; lia. }
    assert (HU : shaped (c_unames c) (combine (c_unames c) (umap (values p) (bnds c)))).
    { apply (fields_combine (c_unames c)). lia. }
    exists (combine (c_unames c) (umap (values p) (bnds c))).
    refine (conj _ (conj HU _)).
    + now apply Hu.
    + rewrite Hb by exact HU. rewrite values_combine by lia.
      rewrite bmap_umap; [|now apply legal_values]. f_equal. symmetry. now apply shaped_combine.
Qed.

Lemma acts_fieldwise_aux names us vs bs k x y a d :
  NoDup names -> List.length names = List.length us -> List.length names = List.length vs ->
  List.length names = List.length bs -> Forall proper bs ->
  In (uname k, x) (combine (map uname names) us) -> In (uname k, y) (combine (map uname names) vs) ->
  In (k, a) (combine names (bmap us bs)) -> In (k, d) (combine names (bmap vs bs)) ->
  (x <= y <-> a <= d).
Proof.
  revert us vs bs. induction names as [|n names IH]; intros [|u us] [|v vs] [|b bs]; cbn; try discriminate.
  - tauto.
  - intros Hnd H1 H2 H3 Hp Hx Hy Ha Hd. inversion Hnd as [|? ? Hni Hnd']; subst.
    inversion Hp as [|? ? Hb Hbs]; subst.
    assert (HN : forall (l : list R) z, In (n, z) (combine names l) -> False).
    { intros l z Hin. apply Hni. eapply in_combine_l. exact Hin. }
    assert (HU : forall (l : list R) z, In (uname n, z) (combine (map uname names) l) -> False).
    { intros l z Hin. apply in_combine_l in Hin. apply in_map_iff in Hin as (j & Hj & Hin).
      apply uname_inj in Hj. subst. tauto. }
    destruct (string_dec n k) as [->|Hne].
    + destruct Hx as [Hx|Hx]; [|destruct (HU _ _ Hx)]. destruct Hy as [Hy|Hy]; [|destruct (HU _ _ Hy)].
      destruct Ha as [Ha|Ha]; [|destruct (HN _ _ Ha)]. destruct Hd as [Hd|Hd]; [|destruct (HN _ _ Hd)].
      injection Hx as <-. injection Hy as <-. injection Ha as <-. injection Hd as <-.
      now apply bounded_param_mono.
    + destruct Hx as [Hx|Hx]; [injection Hx; congruence|].
      destruct Hy as [Hy|Hy]; [injection Hy; congruence|].
      destruct Ha as [Ha|Ha]; [injection Ha; congruence|].
      destruct Hd as [Hd|Hd]; [injection Hd; congruence|].
      eapply (IH us vs bs); eauto; lia.
Qed.

Lemma acts_fieldwise c b ub u v p q k x y a d : wfc c -> acts c b ub ->
  unbounded_for c u -> unbounded_for c v -> b u = Ok p -> b v = Ok q ->
  has u (uname k) x -> has v (uname k) y -> has p k a -> has q k d ->
  (x <= y <-> a <= d).
Proof.
  intros Hw [Hb _] Hu Hv Ep Eq Hx Hy Ha Hd.
  change (shaped (c_unames c) u) in Hu. change (shaped (c_unames c) v) in Hv.
  pose proof (shaped_length _ _ Hu) as L1. pose proof (shaped_length _ _ Hv) as L2.
  pose proof (wfc_bnds_length c Hw) as L3.
  assert (Hlu : List.length (c_unames c) = List.length (c_names c)) by apply map_length.
  rewrite Hb in Ep by exact Hu. rewrite Hb in Eq by exact Hv.
  injection Ep as <-. injection Eq as <-.
  rewrite (shaped_combine _ u Hu) in Hx. rewrite (shaped_combine _ v Hv) in Hy.
  eapply (acts_fieldwise_aux (c_names c) (values u) (values v) (bnds c)); eauto; try lia; apply Hw.
Qed.
