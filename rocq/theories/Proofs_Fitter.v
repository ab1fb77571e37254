(** Target data, skipping, t_peak of the fitter. *)

From Coq Require Import Reals Lra Lia List Arith Bool ZArith.
From Verif Require Import Model_Num RealAux Model_Base Model_Kernels Model_Utils Model_Adam
  Model_Fitter Spec_Kernels Spec_Fitter Proofs_Kernels Proofs_XKernels Proofs_Adam.
Import ListNotations.
Local Open Scope R_scope.

Lemma getlast_app {A} (l : list A) a : getlast (l ++ [a]) = Ok a.
Proof. unfold getlast. now rewrite rev_app_distr. Qed.

Lemma getlast_spec {A} (l : list A) a : getlast l = Ok a <-> last_is l a.
Proof.
  split.
  - unfold getlast. destruct (rev l) as [|b r] eqn:E; [discriminate|]. intros [= ->].
    exists (rev r). rewrite <- (rev_involutive l), E. reflexivity.
  - intros [l' ->]. apply getlast_app.
Qed.

Lemma last_exists {A} (l : list A) : l <> [] -> exists a, last_is l a.
Proof. intros H. destruct (exists_last H) as (l' & a & ->). exists a, l'. reflexivity. Qed.

Lemma last_map {A B} (f : A -> B) l a : last_is l a -> last_is (map f l) (f a).
Proof. intros [l' ->]. exists (map f l'). now rewrite map_app. Qed.

Lemma last_In {A} (l : list A) a : last_is l a -> In a l.
Proof. intros [l' ->]. apply in_or_app. right. cbn; auto. Qed.

Lemma last_nth {A} (l : list A) a : last_is l a -> nth_error l (length l - 1) = Some a.
Proof.
  intros [l' ->]. rewrite app_length. cbn [length]. rewrite nth_error_app2 by lia.
  replace (length l' + 1 - 1 - length l')%nat with 0%nat by lia. reflexivity.
Qed.

Lemma last_fun {A} (l : list A) a b : last_is l a -> last_is l b -> a = b.
Proof. intros [l1 ->] [l2 H]. now apply app_inj_tail in H. Qed.

(** ** Clipping *)

Lemma mass_floor_nonneg g : 0 <= mass_floor g.
Proof. destruct g; cbn; [left; apply pow10_pos | lra]. Qed.

Lemma pow10_lgm g : npow10 (lgm_arg g) = Fin (mass_floor g).
Proof. destruct g; reflexivity. Qed.

Lemma xleb_fin a b : xleb (Fin a) (Fin b) = Rleb a b.
Proof.
  unfold xleb. cbn. destruct (Rleb a b) eqn:E.
  - apply Rleb_true in E. apply orb_true_iff. rewrite Rltb_true, Reqb_true. lra.
  - apply Rleb_false in E. apply orb_false_iff. rewrite Rltb_false, Reqb_false. lra.
Qed.

Lemma clipped_fin m g :
  get_clipped_log_mah (map Fin m) (lgm_arg g)
  = map Fin (map (floored_logmass (mass_floor g)) m).
Proof.
  unfold get_clipped_log_mah, get_clipped_log_mah_in. cbv zeta. rewrite !map_map. apply map_ext. intros x.
  rewrite pow10_lgm, xleb_fin. unfold floored_logmass, jwhere, Rleb, EPSILON.
  pose proof (mass_floor_nonneg g). cbn [nadd nconst Num_xr xadd].
  destruct (Rle_dec x (mass_floor g)) as [H1|H1];
    cbn [nlog10 Num_xr xlog_gen]; rewrite (proj2 (Rltb_true _ _)) by lra; reflexivity.
Qed.

(** ** Masks *)

Lemma select_fst {A B C} (f : A * B -> bool) (h : A -> C) a b : length a = length b ->
  select (map f (combine a b)) (map h a) = map (fun x => h (fst x)) (filter f (combine a b)).
Proof.
  revert b. induction a as [|x a IH]; intros [|y b] H; try discriminate; [reflexivity|].
  cbn in H. injection H as H. unfold select in *. cbn [combine map filter].
  specialize (IH b H). destruct (f (x, y)); cbn; rewrite IH; reflexivity.
Qed.

Lemma select_snd {A B} (f : A * B -> bool) a b : length a = length b ->
  select (map f (combine a b)) b = map snd (filter f (combine a b)).
Proof.
  revert b. induction a as [|x a IH]; intros [|y b] H; try discriminate; [reflexivity|].
  cbn in H. injection H as H. unfold select in *. cbn [combine map filter].
  specialize (IH b H). destruct (f (x, y)); cbn; rewrite IH; reflexivity.
Qed.

Lemma filter_subsequence {A} (f : A -> bool) (keep : A -> Prop) l :
  (forall a, In a l -> f a = true <-> keep a) -> subsequence_of keep l (filter f l).
Proof.
  induction l as [|a l IH]; intros H; cbn [filter]; [constructor|].
  assert (IH' : subsequence_of keep l (filter f l)) by (apply IH; intros; apply H; cbn; auto).
  destruct (f a) eqn:E.
  - apply sub_keep; auto. apply H; cbn; auto.
  - apply sub_drop; auto. rewrite <- H by (cbn; auto). congruence.
Qed.

Lemma subsequence_unique {A} (keep : A -> Prop) l s s' :
  subsequence_of keep l s -> subsequence_of keep l s' -> s = s'.
Proof.
  intros H. revert s'. induction H; intros s' H'; inversion H'; subst; auto; try contradiction.
  f_equal; auto.
Qed.

Lemma combine_fin t l :
  combine (map Fin t) (map Fin l) = map (fun p => (Fin (fst p), Fin (snd p))) (combine t l).
Proof.
  revert l. induction t as [|x t IH]; intros [|y l]; cbn; auto. now rewrite IH.
Qed.

Lemma filter_map {A B} (f : B -> bool) (g : A -> B) l :
  filter f (map g l) = map g (filter (fun a => f (g a)) l).
Proof.
  induction l as [|a l IH]; cbn; auto. destruct (f (g a)); cbn; now rewrite IH.
Qed.

(** ** Running maximum *)

Fixpoint accR (acc : R) (l : list R) : list R :=
  match l with [] => [] | x :: l' => Rmax acc x :: accR (Rmax acc x) l' end.

Lemma xmax_fin a b : xmax (Fin a) (Fin b) = Fin (Rmax a b).
Proof.
  cbn. unfold Rltb, Rmax. destruct (Rlt_dec a b), (Rle_dec a b); try reflexivity; try lra.
  f_equal. lra.
Qed.

Lemma accumulate_fin l : forall acc, accumulate_from (Fin acc) (map Fin l) = map Fin (accR acc l).
Proof.
  induction l as [|x l IH]; intros acc; [reflexivity|].
  cbn [map accumulate_from accR]. cbv zeta. rewrite xmax_fin, IH. reflexivity.
Qed.

Lemma accR_spec l : forall acc i v, nth_error (accR acc l) i = Some v ->
  (v = acc \/ exists j, (j <= i)%nat /\ nth_error l j = Some v) /\ acc <= v /\
  (forall j w, (j <= i)%nat -> nth_error l j = Some w -> w <= v).
Proof.
  induction l as [|x l IH]; intros acc i v H; [destruct i; discriminate|].
  cbn [accR] in H. pose proof (Rmax_l acc x). pose proof (Rmax_r acc x).
  assert (HX : Rmax acc x = acc \/ Rmax acc x = x)
    by (unfold Rmax; destruct (Rle_dec acc x); auto).
  destruct i as [|i].
  - cbn in H. injection H as <-. split; [|split]; auto.
    + destruct HX as [E|E]; [left; auto|]. right. exists 0%nat. split; auto. cbn. now rewrite E.
    + intros j w Hj Hw. destruct j; [|lia]. cbn in Hw. injection Hw as <-. auto.
  - cbn in H. destruct (IH _ _ _ H) as (A & B & C). split; [|split].
    + destruct A as [->|(j & Hj & E)].
      * destruct HX as [E|E]; [left; auto|]. right. exists 0%nat. split; [lia|]. cbn. now rewrite E.
      * right. exists (S j). split; [lia|auto].
    + lra.
    + intros [|j] w Hj Hw.
      * cbn in Hw. injection Hw as <-. lra.
      * cbn in Hw. apply (C j); auto. lia.
Qed.

Lemma accR_length l : forall acc, length (accR acc l) = length l.
Proof. induction l; intros acc; cbn; auto. Qed.

Lemma maximum_accumulate_fin l :
  exists r, maximum_accumulate (map Fin l) = map Fin r /\ running_max l r.
Proof.
  destruct l as [|x l].
  - exists []. split; [reflexivity|]. split; [reflexivity|]. intros [|i] v H; discriminate.
  - exists (x :: accR x l). cbn [map maximum_accumulate]. rewrite accumulate_fin. split; [reflexivity|].
    split; [cbn; now rewrite accR_length|].
    intros [|i] v H.
    + cbn in H. injection H as <-. split; [exists 0%nat; auto|].
      intros j w Hj Hw. destruct j; [|lia]. cbn in Hw. injection Hw as <-. lra.
    + cbn in H. destruct (accR_spec _ _ _ _ H) as (A & B & C). split.
      * destruct A as [->|(j & Hj & E)]; [exists 0%nat; split; [lia|reflexivity]|].
        exists (S j). split; [lia|auto].
      * intros [|j] w Hj Hw; cbn in Hw; [injection Hw as <-; auto|]. apply (C j); auto. lia.
Qed.

(** ** Target data *)

Definition keepb (l0 cut : R) (g : option R) (tmin : R) (p : R * R) : bool :=
  (Rltb (l0 - cut) (snd p) && match g with None => true | Some z => Rltb z (snd p) end
   && Rleb tmin (fst p))%bool.

Lemma keepb_spec l0 cut g tmin p : keepb l0 cut g tmin p = true <-> fit_point l0 cut g tmin p.
Proof.
  unfold keepb, fit_point. rewrite !andb_true_iff, Rltb_true, Rleb_true.
  destruct g; cbn; [rewrite Rltb_true|]; tauto.
Qed.

Lemma target_fin t lm g cut tmin l0 : length t = length lm -> last_is lm l0 ->
  (forall x, In x t -> 0 < x) ->
  exists sel r, subsequence_of (fit_point l0 cut g tmin) (combine t lm) sel /\
    running_max (map snd sel) r /\
    get_target_data (map Fin t) (map Fin lm) (lgm_arg g) (Fin cut) (Fin tmin)
    = Ok (map Fin (map (fun p => log10 (fst p)) sel), map Fin r).
Proof.
  intros HL HL0 Hpos. set (sel := filter (keepb l0 cut g tmin) (combine t lm)).
  destruct (maximum_accumulate_fin (map snd sel)) as (r & E & HR).
  exists sel, r. split; [|split; [exact HR|]].
  - apply filter_subsequence. intros a _. apply keepb_spec.
  - unfold get_target_data, get_target_data_in. cbn [nsub Num_xr].
    rewrite (proj2 (getlast_spec _ _) (last_map Fin _ _ HL0)). cbn [bind]. cbv zeta.
    rewrite select_fst, select_snd by (rewrite !map_length; auto).
    rewrite combine_fin.
    match goal with |- context [filter ?f (map _ _)] => set (ff := f) end.
    assert (EF : filter ff (map (fun p : R * R => (Fin (fst p), Fin (snd p))) (combine t lm))
                 = map (fun p : R * R => (Fin (fst p), Fin (snd p))) sel).
    { rewrite filter_map. f_equal. unfold sel. apply filter_ext. intros [a b].
      unfold ff, keepb. cbn [fst snd].
      rewrite xleb_fin. destruct g; reflexivity. }
    rewrite EF, !map_map. cbn [fst snd]. rewrite <- E, map_map. f_equal. f_equal.
    apply map_ext_in. intros [a b] Hin. unfold sel in Hin. apply filter_In in Hin.
    destruct Hin as [Hin _]. apply in_combine_l in Hin. cbn [fst].
    cbn. rewrite (proj2 (Rltb_true 0 a)); auto.
Qed.

Lemma npts_fin r : count_below_last Rlt r (compute_non_trivial_npts (map Fin r)).
Proof.
  destruct r as [|x r]; [left; auto|]. right.
  destruct (last_exists (x :: r) ltac:(discriminate)) as (top & HT).
  exists top. split; [exact HT|].
  exists (filter (fun z => Rltb z top) (x :: r)). split.
  - apply filter_subsequence. intros a _. apply Rltb_true.
  - unfold compute_non_trivial_npts.
    rewrite (proj2 (getlast_spec _ _) (last_map Fin _ _ HT)). cbv zeta.
    generalize (x :: r). intros l. induction l as [|y l IH]; [reflexivity|].
    cbn [map filter]. change (xltb (Fin y) (Fin top)) with (Rltb y top).
    destruct (Rltb y top); cbn [length]; auto.
Qed.

Lemma count_below_last_fun r n n' : count_below_last Rlt r n -> count_below_last Rlt r n' -> n = n'.
Proof.
  intros [[-> ->]|(top & HT & s & HS & ->)] [[E ->]|(top' & HT' & s' & HS' & ->)]; auto.
  - destruct HT' as [l H]. destruct l; discriminate.
  - subst. destruct HT as [l H]. destruct l; discriminate.
  - rewrite <- (last_fun _ _ _ HT HT') in HS'. now rewrite (subsequence_unique _ _ _ _ HS HS').
Qed.

(** ** t_peak index *)

Lemma first_true_spec l i : first_true l = Some i <->
  nth_error l i = Some true /\ forall j, (j < i)%nat -> nth_error l j = Some false.
Proof.
  revert i. induction l as [|b l IH]; intros i; cbn [first_true].
  - split; [discriminate|]. intros [H _]. destruct i; discriminate.
  - destruct b.
    + split.
      * intros [= <-]. split; [reflexivity|]. intros j Hj; lia.
      * intros [H1 H2]. destruct i; [reflexivity|]. specialize (H2 0%nat ltac:(lia)). discriminate.
    + destruct (first_true l) as [k|] eqn:E; cbn [option_map].
      * split.
        -- intros [= <-]. destruct (proj1 (IH k) eq_refl) as [H1 H2]. split; [exact H1|].
           intros [|j] Hj; [reflexivity|]. apply H2. lia.
        -- intros [H1 H2]. destruct i; [discriminate|]. cbn in H1.
           assert (Some k = Some i); [|congruence]. apply IH. split; [exact H1|].
           intros j Hj. apply (H2 (S j)). lia.
      * split; [discriminate|]. intros [H1 H2]. destruct i; [discriminate|]. cbn in H1.
        assert (None = Some i); [|discriminate]. apply IH. split; [exact H1|].
        intros j Hj. apply (H2 (S j)). lia.
Qed.

Lemma first_true_none l : first_true l = None -> forall i, nth_error l i <> Some true.
Proof.
  induction l as [|b l IH]; intros H i Hi; [destruct i; discriminate|].
  cbn in H. destruct b; [discriminate|]. destruct (first_true l); [discriminate|].
  destruct i; [discriminate|]. exact (IH eq_refl i Hi).
Qed.

Lemma indx_t_peak_fin f4 c lm l0 : casts f4 c -> last_is lm l0 ->
  exists i, compute_indx_t_peak_singlehalo f4 (map Fin lm) = Ok i /\
    (exists x, nth_error lm i = Some x /\ c x = c l0) /\
    (forall j x, (j < i)%nat -> nth_error lm j = Some x -> c x <> c l0).
Proof.
  intros Hc HL. unfold compute_indx_t_peak_singlehalo. cbv zeta. rewrite map_map.
  rewrite (map_ext _ (fun x => Fin (c x)) (fun x => Hc x)).
  rewrite (proj2 (getlast_spec _ _) (last_map (fun x => Fin (c x)) _ _ HL)). cbn [bind].
  rewrite map_map. cbn [xeqb].
  set (bs := map (fun x => Reqb (c x) (c l0)) lm).
  assert (HN : forall j x, nth_error lm j = Some x -> nth_error bs j = Some (Reqb (c x) (c l0))).
  { intros j x H. unfold bs. now rewrite nth_error_map, H. }
  unfold argmax_bool. destruct (first_true bs) as [i|] eqn:E.
  - exists i. split; [reflexivity|]. apply first_true_spec in E. destruct E as [E1 E2]. split.
    + unfold bs in E1. rewrite nth_error_map in E1. destruct (nth_error lm i) as [x|]; [|discriminate].
      cbn in E1. injection E1 as E1. apply Reqb_true in E1. eauto.
    + intros j x Hj Hx. specialize (E2 j Hj). rewrite (HN _ _ Hx) in E2. injection E2 as E2.
      now apply Reqb_false in E2.
  - exfalso. apply (first_true_none _ E (length lm - 1)). rewrite (HN _ _ (last_nth _ _ HL)).
    f_equal. now apply Reqb_true.
Qed.

(** ** get_loss_data *)

Lemma check_ok m : m <> [] -> exists w, check_for_logmah_vs_mah_mistake m = Ok w.
Proof. destruct m; [contradiction|]. intros _. eexists. reflexivity. Qed.

Lemma map_npow10_log10 (l : list (R * R)) : (forall p, In p l -> 0 < fst p) ->
  map npow10 (map Fin (map (fun p => log10 (fst p)) l)) = map Fin (map fst l).
Proof.
  intros H. rewrite !map_map. apply map_ext_in. intros p Hp. cbn. f_equal.
  apply pow10_log10. auto.
Qed.

Lemma subsequence_In {A} (keep : A -> Prop) l s a : subsequence_of keep l s -> In a s -> In a l /\ keep a.
Proof.
  induction 1; intros Hin; [destruct Hin| |].
  - destruct Hin as [->|Hin]; [cbn; auto|]. destruct (IHsubsequence_of Hin). cbn; auto.
  - destruct (IHsubsequence_of Hin). cbn; auto.
Qed.

Definition p_init_of (c : R -> R) (l0 tp : R) : DiffmahParams R :=
  mkParams (c l0) (c (logtc DEFAULT_MAH_PARAMS)) (c (early_index DEFAULT_MAH_PARAMS))
    (c (late_index DEFAULT_MAH_PARAMS)) (c tp).

Definition varied_of {A} (u : DiffmahUParams A) : Varied A :=
  mkVaried (u_logm0 u) (u_logtc u) (u_early_index u) (u_late_index u).

Lemma get_loss_data_fin f4 c t m g cut tmin nmin tpf :
  casts f4 c -> length t = length m -> m <> [] -> (forall x, In x t -> 0 < x) ->
  exists l0 sel r npts,
    last_is (floored g m) l0 /\
    subsequence_of (fit_point l0 cut g tmin) (combine t (floored g m)) sel /\
    running_max (map snd sel) r /\ count_below_last Rlt r npts /\
    ((npts < nmin)%nat ->
       get_loss_data f4 (map Fin t) (map Fin m) (lgm_arg g) (Fin cut) (Fin tmin) nmin (option_map Fin tpf)
       = Ok (mkVaried NOFIT_FILL NOFIT_FILL NOFIT_FILL NOFIT_FILL,
             mkLossData (map Fin (map fst sel)) (map Fin r) NOFIT_FILL NOFIT_FILL, true)) /\
    ((nmin <= npts)%nat ->
       exists tlast tp, last_is t tlast /\ wanted_t_peak c t (floored g m) l0 tpf tp /\
       let u := get_unbounded_mah_params (inject (p_init_of c l0 tp)) in
       get_loss_data f4 (map Fin t) (map Fin m) (lgm_arg g) (Fin cut) (Fin tmin) nmin (option_map Fin tpf)
       = Ok (varied_of u,
             mkLossData (map Fin (map fst sel)) (map Fin r) (u_t_peak u) (Fin (log10 tlast)), false)).
Proof.
  intros Hc HL Hm Hpos.
  assert (HF : floored g m <> []) by (unfold floored; destruct m; [contradiction|discriminate]).
  destruct (last_exists _ HF) as (l0 & HL0).
  destruct (target_fin t (floored g m) g cut tmin l0) as (sel & r & HS & HR & ET); auto.
  { unfold floored. now rewrite map_length. }
  exists l0, sel, r, (compute_non_trivial_npts (map Fin r)).
  split; [exact HL0|]. split; [exact HS|]. split; [exact HR|]. split; [apply npts_fin|].
  assert (HP : forall p, In p sel -> 0 < fst p).
  { intros [a b] Hp. destruct (subsequence_In _ _ _ _ HS Hp) as [Hp' _].
    apply in_combine_l in Hp'. auto. }
  assert (Hm' : map Fin m <> []) by (destruct m; [contradiction|discriminate]).
  destruct (check_ok _ Hm') as (w & EW).
  unfold get_loss_data. rewrite EW. cbn [bind]. rewrite clipped_fin. fold (floored g m). rewrite ET.
  cbn [bind]. cbv zeta. rewrite (map_npow10_log10 sel HP).
  split; intros HN.
  - rewrite (proj2 (Nat.ltb_lt _ _) HN). reflexivity.
  - rewrite (proj2 (Nat.ltb_ge _ _) HN).
    assert (Ht : t <> []) by (destruct t; [destruct m; [contradiction|discriminate]|discriminate]).
    destruct (last_exists t Ht) as (tl & HTL). exists tl.
    rewrite (proj2 (getlast_spec _ _) (last_map Fin _ _ HTL)). cbn [bind].
    assert (Etl : @nlog10 xr _ (Fin tl) = Fin (log10 tl)).
    { cbn. rewrite (proj2 (Rltb_true 0 tl)); auto. apply Hpos. now apply last_In. }
    rewrite (proj2 (getlast_spec _ _) (last_map Fin _ _ HL0)).
    assert (HU : forall tp, mkParams (f4 (Fin l0)) (f4 (logtc DEFAULT_MAH_PARAMS))
        (f4 (early_index DEFAULT_MAH_PARAMS)) (f4 (late_index DEFAULT_MAH_PARAMS)) (f4 (Fin tp))
        = inject (p_init_of c l0 tp)).
    { intros tp. unfold DEFAULT_MAH_PARAMS, inject, p_init_of.
      cbn [logtc early_index late_index logm0 t_peak nconst Num_xr Num_R DEFAULT_MAH_PARAMS].
      now rewrite !Hc. }
    destruct tpf as [x|]; cbn [option_map].
    + exists x. split; [exact HTL|]. split; [reflexivity|]. cbn [bind]. rewrite Etl, HU. reflexivity.
    + destruct (indx_t_peak_fin f4 c (floored g m) l0 Hc HL0) as (i & E & (x & Hx & Hcx) & Hmin).
      rewrite E. cbn [bind]. unfold getitem. rewrite nth_error_map.
      assert (Hi : (i < length t)%nat).
      { rewrite HL. rewrite <- (map_length (floored_logmass (mass_floor g)) m).
        apply nth_error_Some. unfold floored in Hx. congruence. }
      destruct (nth_error t i) as [tp|] eqn:Etp; [|apply nth_error_None in Etp; lia].
      exists tp. split; [exact HTL|]. split.
      * exists i. split; [exact Etp|]. split; [eauto|exact Hmin].
      * cbn [option_map bind]. rewrite Etl, HU. reflexivity.
Qed.

(** ** Bounding of arbitrary optimiser outputs *)

Lemma bounded_param_nan_or_in u lo hi : lo < hi ->
  nan_or_in lo hi (get_bounded_diffmah_param u (Fin lo, Fin hi)).
Proof.
  intros H. destruct (x_bounded_param_inf lo hi) as (A & B & C). destruct u as [r| | |].
  - right. rewrite x_bounded_param_fin. eexists. split; [reflexivity|].
    pose proof (bounded_param_between r lo hi H). lra.
  - right. rewrite A. exists hi. split; [reflexivity|lra].
  - right. rewrite B. exists lo. split; [reflexivity|lra].
  - left. exact C.
Qed.

Lemma x_sigmoid_between (u : xr) lo hi : lo < hi ->
  nan_or_in lo hi (sigmoid u (Fin 0) (Fin (1 / 10)) (Fin lo) (Fin hi)).
Proof.
  intros H. destruct u as [r| | |].
  - right. exists (sigmoid r 0 (1 / 10) lo hi). split.
    + unfold sigmoid. cbn. repeat f_equal; lra.
    + pose proof (sigmoid_between r 0 (1 / 10) lo hi H). lra.
  - right. exists hi. split; [|lra]. unfold sigmoid. cbn [nsub nmul nlogistic nadd Num_xr xsub xneg xadd xmul].
    unfold xscale_inf. rewrite (Reqb_f (1 / 10) 0) by lra. rewrite (Rltb_t 0 (1 / 10)) by lra.
    cbn. f_equal. ring.
  - right. exists lo. split; [|lra]. unfold sigmoid. cbn [nsub nmul nlogistic nadd Num_xr xsub xneg xadd xmul].
    unfold xscale_inf. rewrite (Reqb_f (1 / 10) 0) by lra. rewrite (Rltb_t 0 (1 / 10)) by lra.
    cbn. f_equal. ring.
  - left. reflexivity.
Qed.

Lemma x_sigmoid_nan_lo (u : xr) hi : sigmoid u (Fin 0) (Fin (1 / 10)) NaN (Fin hi) = NaN.
Proof. reflexivity. Qed.

Lemma bounded_within (u : DiffmahUParams xr) : within_bounds (get_bounded_mah_params u).
Proof.
  unfold get_bounded_mah_params, get_early_late, within_bounds.
  cbn [logm0 logtc early_index late_index t_peak MAH_PBOUNDS snd nconst Num_xr BOUNDING_K].
  assert (HE : forall late, nan_or_in (1 / 10) 5 late ->
    nan_or_in (1 / 10) 10 (sigmoid (u_early_index u) (Fin 0) (Fin (1 / 10)) late (Fin 10)) /\
    (forall e l, sigmoid (u_early_index u) (Fin 0) (Fin (1 / 10)) late (Fin 10) = Fin e ->
       late = Fin l -> l <= e)).
  { intros late [->|(l & -> & Hl)].
    - rewrite x_sigmoid_nan_lo. split; [left; reflexivity|discriminate].
    - destruct (x_sigmoid_between (u_early_index u) l 10 ltac:(lra)) as [E|(r & E & Hr)].
      + rewrite E. split; [left; reflexivity|discriminate].
      + rewrite E. split; [right; exists r; split; [reflexivity|lra]|].
        intros e l' [= <-] [= <-]. lra. }
  pose proof (bounded_param_nan_or_in (u_late_index u) (1 / 10) 5 ltac:(lra)) as HLate.
  destruct (HE _ HLate) as (H1 & H2).
  refine (conj _ (conj _ (conj H1 (conj HLate (conj _ H2))))); apply bounded_param_nan_or_in; lra.
Qed.

Lemma inject_u_all (v : Varied R) tp : inject_u (all_uparams v tp) = all_uparams (inject_v v) (Fin tp).
Proof. reflexivity. Qed.

Lemma x_bounded_fin (u : DiffmahUParams R) :
  get_bounded_mah_params (inject_u u) = inject (get_bounded_mah_params u).
Proof.
  unfold get_bounded_mah_params, get_early_late, inject, inject_u.
  cbn [logm0 logtc early_index late_index t_peak MAH_PBOUNDS snd nconst Num_xr Num_R BOUNDING_K
       u_logm0 u_logtc u_early_index u_late_index u_t_peak].
  rewrite !x_bounded_param_fin. f_equal.
Qed.
