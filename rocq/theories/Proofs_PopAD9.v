(** Dual-number differentiation through the parameter transformations, and
    the gradients of the losses. *)

From Coq Require Import Reals String List Bool Arith ZArith Lia Lra.
From Coquelicot Require Import Coquelicot.
From Verif Require Import Model_Num RealAux Model_Base Model_Kernels Model_Utils Model_PopBase Model_PopData
  Model_PopParams Model_PopKernels Model_PopMC Model_Grad Spec_Kernels Spec_Utils Spec_Pop Spec_PopMC Spec_TruncNorm
  Spec_Grad Proofs_Kernels Proofs_AD Proofs_PopBase Proofs_PopParams Proofs_PopAll Proofs_PopProps
  Proofs_PopMC Proofs_PopMC2 Proofs_PopLoss Proofs_PopAD Proofs_PopAD2 Proofs_PopAD6 Proofs_PopAD7 Proofs_PopAD8.
Import ListNotations.
Local Open Scope R_scope.
Local Open Scope string_scope.

(** ** Constants *)

Definition rmap {A B} (h : A -> B) (p : rec A) : rec B := map (fun kv => (fst kv, h (snd kv))) p.
Definition resmap {A B} (h : A -> B) (m : res A) : res B := match m with Ok x => Ok (h x) | Err e => Err e end.

Lemma bind_resmap {A B C D} (m : res A) (k : A -> res B) (h : A -> C) (g : B -> D) (k' : C -> res D) :
  (forall a, k' (h a) = resmap g (k a)) -> bind (resmap h m) k' = resmap g (bind m k).
Proof. intros H. destruct m; cbn; auto. Qed.

Section Hom.
  Context {A B : Type} (h : A -> B).
  Lemma getattr_rmap p k : getattr (rmap h p) k = resmap h (getattr p k).
  Proof. induction p as [|[k' v] p IH]; cbn; [reflexivity|]. destruct (String.eqb k' k); auto. Qed.
  Lemma getattrs_rmap p ks : getattrs (rmap h p) ks = resmap (map h) (getattrs p ks).
  Proof.
    induction ks as [|k ks IH]; cbn [getattrs]; [reflexivity|]. rewrite getattr_rmap.
    apply bind_resmap. intros a. rewrite IH. apply bind_resmap. reflexivity.
  Qed.
  Lemma combine_rmap names (l : list A) : combine names (map h l) = rmap h (combine names l).
  Proof. revert l. induction names as [|n names IH]; intros [|a l]; cbn [combine map rmap]; try reflexivity. now rewrite IH. Qed.
  Lemma make_rmap names (l : list A) : make names (map h l) = resmap (rmap h) (make names l).
  Proof. unfold make. rewrite map_length. destruct (Nat.eqb _ _); [|reflexivity]. cbn. now rewrite combine_rmap. Qed.
  Lemma map_fst_rmap p : map fst (rmap h p) = map fst p.
  Proof. unfold rmap. rewrite map_map. reflexivity. Qed.
  Lemma map_snd_rmap p : map snd (rmap h p) = map h (map snd p).
  Proof. unfold rmap. rewrite !map_map. reflexivity. Qed.
  Lemma make_kw_rmap names p : make_kw names (rmap h p) = resmap (rmap h) (make_kw names p).
  Proof.
    unfold make_kw. rewrite map_fst_rmap. destruct (forallb _ _); [|reflexivity].
    rewrite getattrs_rmap. destruct (getattrs p names); cbn [resmap]; [apply make_rmap|reflexivity].
  Qed.
  Lemma has_key_rmap p k : has_key (rmap h p) k = has_key p k.
  Proof. unfold has_key, rmap. induction p as [|a p IH]; cbn; [reflexivity|]. now rewrite IH. Qed.
  Lemma dict_set_rmap p k v : dict_set (rmap h p) k (h v) = rmap h (dict_set p k v).
  Proof.
    unfold dict_set. rewrite has_key_rmap. destruct (has_key p k).
    - unfold rmap. rewrite !map_map. apply map_ext. intros [k' v']. cbn. now destruct (String.eqb k' k).
    - unfold rmap. now rewrite map_app.
  Qed.
  Lemma dict_update_rmap q p : dict_update (rmap h p) (rmap h q) = rmap h (dict_update p q).
  Proof.
    unfold dict_update. revert p. induction q as [|[k v] q IH]; intros p; [reflexivity|].
    cbn [rmap map fold_left fst snd]. rewrite dict_set_rmap. apply IH.
  Qed.
  Lemma dict_updates_rmap l p : fold_left dict_update (map (rmap h) l) (rmap h p) = rmap h (fold_left dict_update l p).
  Proof. revert p. induction l as [|q l IH]; intros p; [reflexivity|]. cbn [map fold_left]. rewrite dict_update_rmap. apply IH. Qed.
  Lemma vmap2_hom {C} (f : A -> C -> A) (f' : B -> C -> B) xs ys : (forall a c, f' (h a) c = h (f a c)) ->
    vmap2 f' (map h xs) ys = resmap (map h) (vmap2 f xs ys).
  Proof.
    intros H. unfold vmap2. rewrite map_length. destruct (Nat.eqb _ _); [|reflexivity]. cbn. f_equal.
    rewrite combine_map_l, !map_map. apply map_ext. intros [a c]. cbn. apply H.
  Qed.
End Hom.

Lemma unbounded_lift (c : R) b : get_unbounded_param (dlift c) b = dlift (get_unbounded_param c b).
Proof.
  unfold get_unbounded_param, inverse_sigmoid, K_BOUNDING, dlift. cbn -[Rinv IZR].
  unfold dsub, dmul, dadd, ddiv, dlog, dconst. cbn -[Rinv IZR]. unfold Rdiv. f_equal; ring.
Qed.

Definition lifts (f : rec R -> res (rec R)) (f' : rec (Dual R) -> res (rec (Dual R))) : Prop :=
  forall p, f' (rmap dlift p) = resmap (rmap dlift) (f p).

Lemma lift_unbounded c : lifts (get_unbounded_params c) (get_unbounded_params c).
Proof.
  intros p. unfold get_unbounded_params. rewrite getattrs_rmap. apply bind_resmap. intros a.
  destruct (c_pbounds c) as [b|]; [|reflexivity]. cbn [bind].
  rewrite (vmap2_hom dlift get_unbounded_param get_unbounded_param a (values b)) by (intros; apply unbounded_lift).
  apply bind_resmap. intros l. apply make_rmap.
Qed.
Lemma lift_select names : lifts (select names) (select names).
Proof. intros p. unfold select. rewrite getattrs_rmap. apply bind_resmap. intros a. apply make_rmap. Qed.
Lemma lift_part c : lifts (part_unbounded c) (part_unbounded c).
Proof. intros p. unfold part_unbounded. rewrite lift_select. apply bind_resmap. apply lift_unbounded. Qed.
Lemma lift_pair w c d : lifts (get_unbounded_pair w c d) (get_unbounded_pair w c d).
Proof.
  intros p. unfold get_unbounded_pair. rewrite lift_part. apply bind_resmap. intros a. rewrite lift_part.
  apply bind_resmap. intros b. unfold values. rewrite !map_snd_rmap, <- map_app. apply make_rmap.
Qed.
Lemma lift_quad w a b c d : lifts (get_unbounded_quad w a b c d) (get_unbounded_quad w a b c d).
Proof.
  intros p. unfold get_unbounded_quad. rewrite lift_part. apply bind_resmap. intros p1. rewrite lift_part.
  apply bind_resmap. intros p2. rewrite lift_part. apply bind_resmap. intros p3. rewrite lift_part.
  apply bind_resmap. intros p4. unfold values. rewrite !map_snd_rmap, <- !map_app. apply make_rmap.
Qed.
Lemma lift_late : lifts get_unbounded_late_index_params get_unbounded_late_index_params.
Proof.
  intros p. unfold get_unbounded_late_index_params. cbv zeta. rewrite getattrs_rmap. apply bind_resmap. intros v1.
  rewrite make_rmap. apply bind_resmap. intros l1. rewrite lift_unbounded. apply bind_resmap. intros _.
  apply bind_resmap. intros v2. rewrite make_rmap. apply bind_resmap. intros l2.
  rewrite lift_unbounded. apply bind_resmap. intros u. unfold values. rewrite map_snd_rmap, <- map_app. apply make_rmap.
Qed.

Lemma lift_unbounders : Forall2 lifts UNBOUNDERS UNBOUNDERS.
Proof.
  unfold UNBOUNDERS.
  apply Forall2_cons; [apply lift_unbounded|].
  apply Forall2_cons; [apply lift_unbounded|].
  apply Forall2_cons; [apply lift_quad|].
  apply Forall2_cons; [apply lift_quad|].
  apply Forall2_cons; [apply lift_pair|].
  apply Forall2_cons; [apply lift_pair|].
  apply Forall2_cons; [apply lift_late|].
  apply Forall2_cons; [apply lift_unbounded|].
  apply Forall2_cons; [apply lift_unbounded|].
  apply Forall2_nil.
Qed.

Lemma default_lift c : component_default (A := Dual R) c = resmap (rmap dlift) (component_default (A := R) c).
Proof.
  unfold component_default. destruct (c_default c) as [p|]; [|reflexivity]. cbn [bind resmap]. f_equal.
  unfold rec_const, rmap. rewrite map_map. reflexivity.
Qed.

Lemma DEFAULT_U_lift : DEFAULT_DIFFMAHPOP_U_PARAMS (A := Dual R) = resmap (rmap dlift) (DEFAULT_DIFFMAHPOP_U_PARAMS (A := R)).
Proof.
  unfold DEFAULT_DIFFMAHPOP_U_PARAMS.
  assert (Q : forall cs us us', Forall2 lifts us us' ->
    mapM (fun cf => let* d := component_default (A := Dual R) (fst cf) in snd cf d) (combine cs us')
    = resmap (map (rmap dlift)) (mapM (fun cf => let* d := component_default (A := R) (fst cf) in snd cf d) (combine cs us))).
  { intros cs us us' F. revert cs. induction F as [|u u' us us' H F IH]; intros [|c cs]; cbn [combine mapM]; try reflexivity.
    cbn [fst snd]. rewrite default_lift.
    rewrite (bind_resmap _ u (rmap dlift) (rmap dlift) u' H). apply bind_resmap. intros p. rewrite IH. apply bind_resmap. reflexivity. }
  rewrite (Q COMPONENTS _ _ lift_unbounders). apply bind_resmap. intros l. cbv zeta.
  change (@nil (string * Dual R)) with (rmap (dlift (A := R)) []). rewrite dict_updates_rmap, map_fst_rmap. apply make_kw_rmap.
Qed.

Lemma DEFAULT_lift : DEFAULT_DIFFMAHPOP_PARAMS (A := Dual R) = resmap (rmap dlift) (DEFAULT_DIFFMAHPOP_PARAMS (A := R)).
Proof.
  unfold DEFAULT_DIFFMAHPOP_PARAMS. destruct (make_kw POP_NAMES DEFAULT_DIFFMAHPOP_PDICT) as [p|]; [|reflexivity].
  cbn [bind resmap]. f_equal. unfold rec_const, rmap. rewrite map_map. reflexivity.
Qed.

Lemma rt_lift x (p : rec R) : rt x (fun _ => p) (rmap dlift p).
Proof.
  induction p as [|kv p IH]; [apply LT_nil|]. apply (LT_cons _ (fun _ => kv)); [|exact IH].
  split; [reflexivity|]. apply tracks_lift.
Qed.

(** ** Varied parameters *)

Lemma rt_values x P D : rt x P D -> LT x (fun y => values (P y)) (values D).
Proof. intros H. unfold values. apply (LT_map _ (fun f d => tracks f x d) (fun _ => snd) snd P D H). intros f d [_ T]. exact T. Qed.

Lemma LT_app_LT x a b c d : LT x a b -> LT x c d -> LT x (fun y => a y ++ c y)%list (b ++ d)%list.
Proof. apply LT_app. Qed.

(** A transformation of namedtuples that can be differentiated where it
    returns. *)
Definition smooth_map (f : rec R -> res (rec R)) (f' : rec (Dual R) -> res (rec (Dual R))) : Prop :=
  forall x P D r, f (P x) = Ok r -> rt x P D -> rel (rt x) (fun y => f (P y)) (f' D).

Lemma LT_combine_const x fl dl (b : list (R * R)) : LT x fl dl ->
  LT x (fun y => map (fun xy => get_bounded_param (fst xy) (snd xy)) (combine (fl y) b))
    (map (fun xy => get_bounded_param (fst xy) (snd xy)) (combine dl b)).
Proof.
  intros (L & E & F). eapply LT_ext; [intros y; symmetry; rewrite E; reflexivity|]. clear E fl.
  revert b. induction F as [|f d L D H F IH]; intros [|c b]; cbn [map combine]; try apply LT_nil.
  apply (LT_cons _ (fun y => get_bounded_param (f y) c)); [now apply t_bounded|apply IH].
Qed.

Lemma smooth_bounded c : smooth_map (get_bounded_params c) (get_bounded_params c).
Proof.
  intros x P D r Hx HP. unfold get_bounded_params in *.
  eapply rel_bind; [exact Hx|intros a Ha; apply (rel_gets _ _ _ _ _ Ha HP)|].
  intros fl dl _ HL Hr. cbn beta in *. destruct (c_pbounds c) as [b|]; [|discriminate]. cbn [bind] in *.
  eapply (rel_bind x (LT x)); [exact Hr| |].
  - intros a Ha. unfold vmap2 in *. pose proof (LT_length _ _ _ HL) as EL. rewrite EL in Ha.
    destruct (Nat.eqb (length dl) (length (values b))) eqn:En; [|discriminate].
    eapply (rel_ext _ (fun y => Ok (map (fun xy => get_bounded_param (fst xy) (snd xy)) (combine (fl y) (values b)))));
      [intros y; now rewrite EL, En|reflexivity|]. apply rel_ok. now apply LT_combine_const.
  - intros gl el _ HG Hm. cbn beta in *. now apply (rel_make x _ gl el r).
Qed.
Lemma smooth_part c : smooth_map (part_bounded c) (part_bounded c).
Proof.
  intros x P D r Hx HP. unfold part_bounded in *.
  eapply rel_bind; [exact Hx|intros a Ha; apply (rel_select _ _ _ _ _ Ha HP)|].
  intros f d _ HL Hr. now apply (smooth_bounded c x f d r).
Qed.
Lemma smooth_pair w c d : smooth_map (get_bounded_pair w c d) (get_bounded_pair w c d).
Proof.
  intros x P D r Hx HP. unfold get_bounded_pair in *.
  eapply rel_bind; [exact Hx|intros a Ha; apply (smooth_part _ _ _ _ _ Ha HP)|]. clear Hx. intros f1 d1 _ H1 Hx. cbn beta in *.
  eapply rel_bind; [exact Hx|intros a Ha; apply (smooth_part _ _ _ _ _ Ha HP)|]. clear Hx. intros f2 d2 _ H2 Hx. cbn beta in *.
  apply (rel_make x _ (fun y => values (f1 y) ++ values (f2 y))%list _ r Hx).
  apply LT_app; now apply rt_values.
Qed.
Lemma smooth_quad w a b c d : smooth_map (get_bounded_quad w a b c d) (get_bounded_quad w a b c d).
Proof.
  intros x P D r Hx HP. unfold get_bounded_quad in *.
  eapply rel_bind; [exact Hx|intros z Ha; apply (smooth_part _ _ _ _ _ Ha HP)|]. clear Hx. intros f1 d1 _ H1 Hx. cbn beta in *.
  eapply rel_bind; [exact Hx|intros z Ha; apply (smooth_part _ _ _ _ _ Ha HP)|]. clear Hx. intros f2 d2 _ H2 Hx. cbn beta in *.
  eapply rel_bind; [exact Hx|intros z Ha; apply (smooth_part _ _ _ _ _ Ha HP)|]. clear Hx. intros f3 d3 _ H3 Hx. cbn beta in *.
  eapply rel_bind; [exact Hx|intros z Ha; apply (smooth_part _ _ _ _ _ Ha HP)|]. clear Hx. intros f4 d4 _ H4 Hx. cbn beta in *.
  apply (rel_make x _ (fun y => values (f1 y) ++ values (f2 y) ++ values (f3 y) ++ values (f4 y))%list _ r Hx).
  apply LT_app; [now apply rt_values|]. apply LT_app; [now apply rt_values|]. apply LT_app; now apply rt_values.
Qed.
Lemma smooth_late : smooth_map get_bounded_late_index_params get_bounded_late_index_params.
Proof.
  intros x P D r Hx HP. unfold get_bounded_late_index_params in *.
  eapply rel_bind; [exact Hx|intros z Ha; apply (smooth_part _ _ _ _ _ Ha HP)|]. clear Hx. intros f1 d1 _ H1 Hx. cbn beta in *.
  eapply rel_bind; [exact Hx|intros z Ha; apply (smooth_part _ _ _ _ _ Ha HP)|]. clear Hx. intros f2 d2 _ H2 Hx. cbn beta in *.
  apply (rel_make x _ (fun y => values (f2 y) ++ values (f2 y))%list _ r Hx).
  apply LT_app; now apply rt_values.
Qed.

Lemma smooth_bounders : Forall2 smooth_map BOUNDERS BOUNDERS.
Proof.
  unfold BOUNDERS.
  apply Forall2_cons; [apply smooth_bounded|].
  apply Forall2_cons; [apply smooth_bounded|].
  apply Forall2_cons; [apply smooth_quad|].
  apply Forall2_cons; [apply smooth_quad|].
  apply Forall2_cons; [apply smooth_pair|].
  apply Forall2_cons; [apply smooth_pair|].
  apply Forall2_cons; [apply smooth_late|].
  apply Forall2_cons; [apply smooth_bounded|].
  apply Forall2_cons; [apply smooth_bounded|].
  apply Forall2_nil.
Qed.

Lemma rel_bounders x bs bs' us dus r : Forall2 smooth_map bs bs' -> LTg (rt x) us dus ->
  mapM (fun fu => fst fu (snd fu)) (combine bs (us x)) = Ok r ->
  rel (LTg (rt x)) (fun y => mapM (fun fu => fst fu (snd fu)) (combine bs (us y)))
    (mapM (fun fu => fst fu (snd fu)) (combine bs' dus)).
Proof.
  intros HB. revert us dus r. induction HB as [|b b' bs bs' H HB IH]; intros us dus r HU Hx.
  - cbn [combine mapM]. apply (rel_ok _ (fun _ => [])). apply LT_nil.
  - destruct dus as [|d dus].
    + eapply (rel_ext _ (fun _ => Ok [])); [intros y; now rewrite (LT_inv_nil _ _ HU y)|reflexivity|].
      apply (rel_ok _ (fun _ => [])). apply LT_nil.
    + destruct (LT_inv_cons _ _ _ _ HU) as (f & gl & E & T & HR). rewrite E in Hx. cbn [combine mapM fst snd] in Hx |- *.
      eapply (rel_ext _ (fun y => let* v := b (f y) in let* vs := mapM (fun fu => fst fu (snd fu)) (combine bs (gl y)) in Ok (v :: vs)));
        [intros y; rewrite E; reflexivity|reflexivity|].
      eapply rel_bind; [exact Hx|intros a Ha; apply (H x f d a Ha T)|]. clear Hx. intros f1 d1 _ H1 Hx. cbn beta in *.
      eapply rel_bind; [exact Hx|intros a Ha; apply (IH gl dus a HR Ha)|]. clear Hx. intros f2 d2 _ H2 Hx. cbn beta in *.
      apply (rel_ok _ (fun y => f1 y :: f2 y)). now apply LT_cons.
Qed.

Lemma getattr_err_fields {A B} (p : rec A) (q : rec B) k e : fields p = fields q -> getattr p k = Err e -> exists e', getattr q k = Err e'.
Proof.
  revert q. induction p as [|[k' v] p IH]; intros [|[k2 w] q] E H; try discriminate; cbn in *; [eauto|].
  injection E as -> E. destruct (String.eqb k2 k); [discriminate|]. eauto.
Qed.

Lemma has_key_fields {A B} (p : rec A) (q : rec B) : fields p = fields q -> forall k, has_key p k = has_key q k.
Proof.
  revert q. induction p as [|[k' v] p IH]; intros [|[k2 w] q] E k; try discriminate; [reflexivity|].
  cbn in E. injection E as -> E. unfold has_key in *. cbn [existsb fst]. f_equal. now apply IH.
Qed.

Lemma forallb_ext' {X} (f g : X -> bool) l : (forall a, f a = g a) -> forallb f l = forallb g l.
Proof. intros H. induction l as [|a l IH]; cbn; congruence. Qed.

Lemma rel_replace x P D Q E r : replace (P x) (Q x) = Ok r -> rt x P D -> rt x Q E ->
  rel (rt x) (fun y => replace (P y) (Q y)) (replace D E).
Proof.
  intros Hx HP HQ. unfold replace in *.
  pose proof (rt_fields x P D HP) as FP. pose proof (rt_fields x Q E HQ) as FQ.
  assert (C : forall y, forallb (fun k => has_key (P y) k) (fields (Q y)) = forallb (fun k => has_key D k) (fields E)).
  { intros y. rewrite FQ. apply forallb_ext'. intros k. apply has_key_fields. apply FP. }
  rewrite C in Hx. destruct (forallb (fun k => has_key D k) (fields E)) eqn:EB; [|discriminate]. clear Hx r.
  eapply (rel_ext _ (fun y => Ok (map (fun kv => (fst kv, match getattr (Q y) (fst kv) with Ok v => v | Err _ => snd kv end)) (P y))));
    [intros y; now rewrite C|reflexivity|].
  apply (rel_ok (rt x) (fun y => map (fun kv => (fst kv, match getattr (Q y) (fst kv) with Ok v => v | Err _ => snd kv end)) (P y))).
  refine (LT_map (fun (f : R -> string * R) d => (forall y, fst (f y) = fst d) /\ tracks (fun y => snd (f y)) x (snd d))
            (fun (f : R -> string * R) d => (forall y, fst (f y) = fst d) /\ tracks (fun y => snd (f y)) x (snd d))
            (fun y kv => (fst kv, match getattr (Q y) (fst kv) with Ok v => v | Err _ => snd kv end)) _ P D HP _).
  intros f d [F1 F2]. cbn [fst snd]. split; [exact F1|].
  destruct (getattr (Q x) (fst d)) as [v|e] eqn:EG.
  - destruct (rel_get x Q E (fst d) v EG HQ) as (g & dg & G1 & G2 & G3 & _).
    rewrite G2. apply (tracks_ext x g); [intros y; rewrite F1, G1; reflexivity|exact G3].
  - destruct (getattr_err_fields (Q x) E (fst d) e (FQ x) EG) as [e' ->].
    apply (tracks_ext x (fun y => snd (f y))); [|exact F2]. intros y. rewrite F1.
    destruct (getattr_err_fields (Q x) (Q y) (fst d) e ltac:(now rewrite !FQ) EG) as [e2 ->]. reflexivity.
Qed.

Lemma rel_replace_loop x fl dl : LTg (rt x) fl dl -> forall P D r, replace_loop (P x) (fl x) = Ok r -> rt x P D ->
  rel (rt x) (fun y => replace_loop (P y) (fl y)) (replace_loop D dl).
Proof.
  revert fl. induction dl as [|d dl IH]; intros fl HL P D r Hx HP.
  - eapply (rel_ext _ (fun y => Ok (P y))); [intros y; now rewrite (LT_inv_nil _ _ HL y)|reflexivity|]. now apply rel_ok.
  - destruct (LT_inv_cons _ _ _ _ HL) as (f & gl & E & T & HR). rewrite E in Hx. cbn [replace_loop] in Hx |- *.
    eapply (rel_ext _ (fun y => let* a := replace (P y) (f y) in replace_loop a (gl y))); [intros y; rewrite E; reflexivity|reflexivity|].
    eapply rel_bind; [exact Hx|intros a Ha; apply (rel_replace x P D f d a Ha HP T)|].
    clear Hx. intros f1 d1 _ H1 Hx. cbn beta in *. now apply (IH gl HR f1 d1 r).
Qed.

Lemma rel_u_components x U D r : get_component_model_u_params (U x) = Ok r -> rt x U D ->
  rel (LTg (rt x)) (fun y => get_component_model_u_params (U y)) (get_component_model_u_params D).
Proof.
  intros Hx HU. unfold get_component_model_u_params in *.
  apply (rel_mapM x (rt x) (fun y c => select (c_unames c) (U y)) (fun c => select (c_unames c) D) _ r Hx).
  intros c a _ Ha. exact (rel_select _ _ _ _ _ Ha HU).
Qed.

Lemma rel_from_u x U D p : get_diffmahpop_params_from_u_params (U x) = Ok p -> rt x U D ->
  rel (fun f d => rt x f d /\ f x = p) (fun y => get_diffmahpop_params_from_u_params (U y)) (get_diffmahpop_params_from_u_params D).
Proof.
  intros Hx HU.
  assert (Q : rel (rt x) (fun y => get_diffmahpop_params_from_u_params (U y)) (get_diffmahpop_params_from_u_params D)).
  { unfold get_diffmahpop_params_from_u_params in *.
    eapply rel_bind; [exact Hx|intros a Ha; apply (rel_u_components _ _ _ _ Ha HU)|]. clear Hx. intros f1 d1 _ H1 Hx. cbn beta in *.
    eapply rel_bind; [exact Hx|intros a Ha; exact (rel_bounders x _ _ f1 d1 a smooth_bounders H1 Ha)|].
    clear Hx. intros f2 d2 _ H2 Hx. cbn beta in *.
    rewrite DEFAULT_lift. destruct (DEFAULT_DIFFMAHPOP_PARAMS (A := R)) as [df|]; [|discriminate]. cbn [bind resmap] in *.
    exact (rel_replace_loop x f2 d2 H2 (fun _ => df) (rmap dlift df) p Hx (rt_lift x df)). }
  revert Q. apply rel_imp'. intros f d Hf HT. split; [exact HT|]. rewrite Hf in Hx. now injection Hx.
Qed.

(** ** Lines *)

Lemma rt_line p v : rt 0 (line p v) (seed p v).
Proof.
  induction p as [|[k a] p IH]; [apply LT_nil|].
  apply (LT_cons _ (fun h => (k, a + h * v k))); [|exact IH]. split; [reflexivity|]. cbn [snd]. apply tracks_line.
Qed.
Lemma line_0 p v : line p v 0 = p.
Proof.
  induction p as [|[k a] p IH]; [reflexivity|]. cbn [line map fst snd]. unfold line in IH. rewrite IH. f_equal. f_equal. ring.
Qed.

(** If the dual run follows the real one in every direction then
    value_and_grad returns the value and the derivatives. *)
Lemma vary_line p k h : line p (along k) h = vary p k h.
Proof.
  unfold line, vary, along. apply map_ext. intros [k' v]. cbn [fst snd]. rewrite (String.eqb_sym k k').
  destruct (String.eqb k' k); f_equal; ring.
Qed.

Lemma grad_exact (f : rec R -> res R) (fd : rec (Dual R) -> res (Dual R)) p :
  (forall v, rel (fun g d => tracks g 0 d) (fun h => f (line p v h)) (fd (seed p v))) ->
  exists value g, value_and_grad fd p = Ok (value, g) /\ f p = Ok value /\ fields g = fields p /\
    forall k, In k (fields p) -> exists D, getattr g k = Ok D /\
      returns_with_derivative (fun h => f (vary p k h)) value D.
Proof.
  intros H. destruct (H (fun _ => 0)) as (f0 & d0 & E0 & ED0 & [T0 _]).
  assert (V0 : f p = Ok (dval d0)).
  { rewrite T0, <- (E0 0), line_0. reflexivity. }
  assert (Q : forall ks, exists g, mapM (fun k => let* d := fd (seed p (along k)) in Ok (k, dder d)) ks = Ok g /\ fields g = ks /\
    forall k, In k ks -> exists D, getattr g k = Ok D /\ returns_with_derivative (fun h => f (vary p k h)) (dval d0) D).
  { induction ks as [|k ks (g & E & EF & EG)]; [exists []; cbn; intuition|].
    destruct (H (along k)) as (f1 & d1 & E1 & ED1 & [T1 T2]).
    exists ((k, dder d1) :: g). split; [|split].
    - cbn [mapM]. rewrite ED1. cbn [bind]. rewrite E. reflexivity.
    - cbn. now f_equal.
    - intros k' Hk. cbn [getattr]. destruct (String.eqb_spec k k') as [<-|N].
      + exists (dder d1). split; [reflexivity|]. exists f1. split; [intros h; rewrite <- vary_line; exact (E1 h)|]. split; [|exact T2].
        pose proof (E1 0) as E1'. rewrite line_0, V0 in E1'. now injection E1' as <-.
      + destruct Hk as [->|Hk]; [congruence|]. now apply EG. }
  destruct (Q (fields p)) as (g & E & EF & EG).
  exists (dval d0), g. split; [|split; [|split]]; auto.
  unfold value_and_grad. rewrite ED0. cbn [bind]. rewrite E. reflexivity.
Qed.

Section Gradients.
  Context (F : Dual R -> Dual R -> Dual R -> Dual R -> Dual R -> Dual R) (HF : exact_truncnorm F).
  Context (unif : key -> R) (unifs normal : key -> nat -> R) (lgt0 : R).
  Local Notation GR := (jax_rng unif unifs normal : rng R).
  Local Notation GD := (jax_rng unif unifs normal : rng (Dual R)).

  Lemma rel_u_loss U D x bins k d u' p :
    rt x U D -> DEFAULT_DIFFMAHPOP_U_PARAMS = Ok d -> replace d (U x) = Ok u' -> get_diffmahpop_params_from_u_params u' = Ok p ->
    smooth_pop p -> regular_bins unif unifs normal Cen p bins k lgt0 -> well_shaped bins ->
    rel (fun f d => tracks f x d)
      (fun y => fst (loss_mah_moments_multibin_u_params truncnorm_cdf_R GR (U y) bins k lgt0))
      (fst (loss_mah_moments_multibin_u_params F GD D (map lift_bin bins) k (dlift lgt0))).
  Proof.
    intros HU Ed Eu Ep HS HR HW.
    destruct (rel_replace x (fun _ => d) (rmap dlift d) U D u' Eu (rt_lift x d) HU) as (f1 & d1 & E1 & D1 & T1).
    assert (X1 : f1 x = u') by (rewrite E1 in Eu; now injection Eu). subst u'.
    destruct (rel_from_u x f1 d1 p Ep T1) as (f2 & d2 & E2 & D2 & T2 & X2). subst p.
    destruct (rel_multibin F HF unif unifs normal x f2 d2 T2 HS lgt0 Cen bins k HR HW) as (f3 & d3 & E3 & D3 & T3).
    exists f3, d3. split; [|split; [|exact T3]].
    - intros y. unfold loss_mah_moments_multibin_u_params. rewrite fst_mbind. cbn [mlift fst]. rewrite Ed. cbn [bind].
      rewrite fst_mbind. cbn [mlift fst]. rewrite E1. cbn [bind]. rewrite fst_mbind. cbn [mlift fst]. rewrite E2. cbn [bind]. apply E3.
    - unfold loss_mah_moments_multibin_u_params. rewrite fst_mbind. cbn [mlift fst]. rewrite DEFAULT_U_lift, Ed. cbn [bind resmap].
      rewrite fst_mbind. cbn [mlift fst]. rewrite D1. cbn [bind]. rewrite fst_mbind. cbn [mlift fst]. rewrite D2. cbn [bind]. exact D3.
  Qed.

  Lemma rel_censat V D x bc bs k d p :
    rt x V D -> DEFAULT_DIFFMAHPOP_PARAMS = Ok d -> replace d (V x) = Ok p ->
    smooth_pop p -> regular_bins unif unifs normal Cen p bc (Split k 2 0) lgt0 ->
    regular_bins unif unifs normal Sat p bs (Split k 2 1) lgt0 -> well_shaped bc -> well_shaped bs ->
    rel (fun f d => tracks f x d)
      (fun y => fst (loss_mah_moments_multibin_censat truncnorm_cdf_R GR (V y) bc bs k lgt0))
      (fst (loss_mah_moments_multibin_censat F GD D (map lift_bin bc) (map lift_bin bs) k (dlift lgt0))).
  Proof.
    intros HU Ed Eu HS HRc HRs HWc HWs.
    destruct (rel_replace x (fun _ => d) (rmap dlift d) V D p Eu (rt_lift x d) HU) as (f1 & d1 & E1 & D1 & T1).
    assert (X1 : f1 x = p) by (rewrite E1 in Eu; now injection Eu). subst p.
    destruct (rel_multibin F HF unif unifs normal x f1 d1 T1 HS lgt0 Cen bc (Split k 2 0) HRc HWc) as (f2 & d2 & E2 & D2 & T2).
    destruct (rel_multibin F HF unif unifs normal x f1 d1 T1 HS lgt0 Sat bs (Split k 2 1) HRs HWs) as (f3 & d3 & E3 & D3 & T3).
    exists (fun y => nadd (f2 y) (f3 y)), (nadd d2 d3). split; [|split].
    - intros y. unfold loss_mah_moments_multibin_censat. rewrite fst_mbind. cbn [mlift fst]. rewrite Ed. cbn [bind].
      rewrite fst_mbind. cbn [mlift fst]. rewrite E1. cbn [bind]. rewrite fst_mbind. rewrite E2. cbn [bind].
      rewrite fst_mbind. rewrite E3. reflexivity.
    - unfold loss_mah_moments_multibin_censat. rewrite fst_mbind. cbn [mlift fst]. rewrite DEFAULT_lift, Ed. cbn [bind resmap].
      rewrite fst_mbind. cbn [mlift fst]. rewrite D1. cbn [bind]. rewrite fst_mbind. rewrite D2. cbn [bind].
      rewrite fst_mbind. rewrite D3. reflexivity.
    - now apply (t_add x f2 f3).
  Qed.

  Lemma rel_censat_u U D x bc bs k d u' p d' p' :
    rt x U D -> DEFAULT_DIFFMAHPOP_U_PARAMS = Ok d -> replace d (U x) = Ok u' -> get_diffmahpop_params_from_u_params u' = Ok p ->
    DEFAULT_DIFFMAHPOP_PARAMS = Ok d' -> replace d' p = Ok p' ->
    smooth_pop p' -> regular_bins unif unifs normal Cen p' bc (Split k 2 0) lgt0 ->
    regular_bins unif unifs normal Sat p' bs (Split k 2 1) lgt0 -> well_shaped bc -> well_shaped bs ->
    rel (fun f d => tracks f x d)
      (fun y => fst (loss_mah_moments_multibin_censat_u_params truncnorm_cdf_R GR (U y) bc bs k lgt0))
      (fst (loss_mah_moments_multibin_censat_u_params F GD D (map lift_bin bc) (map lift_bin bs) k (dlift lgt0))).
  Proof.
    intros HU Ed Eu Ep Ed' Ep' HS HRc HRs HWc HWs.
    destruct (rel_replace x (fun _ => d) (rmap dlift d) U D u' Eu (rt_lift x d) HU) as (f1 & d1 & E1 & D1 & T1).
    assert (X1 : f1 x = u') by (rewrite E1 in Eu; now injection Eu). subst u'.
    destruct (rel_from_u x f1 d1 p Ep T1) as (f2 & d2 & E2 & D2 & T2 & X2). subst p.
    destruct (rel_censat f2 d2 x bc bs k d' p' T2 Ed' Ep' HS HRc HRs HWc HWs) as (f3 & d3 & E3 & D3 & T3).
    exists f3, d3. split; [|split; [|exact T3]].
    - intros y. unfold loss_mah_moments_multibin_censat_u_params. rewrite fst_mbind. cbn [mlift fst]. rewrite Ed. cbn [bind].
      rewrite fst_mbind. cbn [mlift fst]. rewrite E1. cbn [bind]. rewrite fst_mbind. cbn [mlift fst]. rewrite E2. cbn [bind]. apply E3.
    - unfold loss_mah_moments_multibin_censat_u_params. rewrite fst_mbind. cbn [mlift fst]. rewrite DEFAULT_U_lift, Ed. cbn [bind resmap].
      rewrite fst_mbind. cbn [mlift fst]. rewrite D1. cbn [bind]. rewrite fst_mbind. cbn [mlift fst]. rewrite D2. cbn [bind]. exact D3.
  Qed.
End Gradients.
