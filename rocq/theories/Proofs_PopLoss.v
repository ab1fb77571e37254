(** Lemmas on the predicted moments and the population losses. *)

From Coq Require Import Reals String List Bool Arith Lia Lra.
From Verif Require Import Model_Num RealAux Model_Base Model_Kernels Model_Utils Model_PopBase Model_PopData
  Model_PopParams Model_PopKernels Model_PopMC Proofs_Kernels Spec_Kernels Spec_Utils Spec_Pop Spec_PopMC Spec_TruncNorm
  Proofs_PopTpeak Proofs_PopKernels Proofs_PopProps Proofs_PopMC Proofs_PopMC2.
Import ListNotations.
Local Open Scope R_scope.
Local Open Scope list_scope.

(** ** Tables *)

Lemma add_rows_length (x y : list R) : length y = length x -> length (add_rows x y) = length x.
Proof.
  revert y. induction x as [|a x IH]; intros [|b y] H; cbn in *; try discriminate; [reflexivity|]. f_equal. apply IH. lia.
Qed.

Lemma add_rows_nth (x y : list R) j : length y = length x -> nth j (add_rows x y) 0 = nth j x 0 + nth j y 0.
Proof.
  revert y j. induction x as [|a x IH]; intros [|b y] [|j] H; cbn in *; try discriminate; try lra. apply IH. lia.
Qed.

Lemma sum_axis0_length nt (table : list (list R)) : (forall r, In r table -> length r = nt) -> length (sum_axis0 nt table) = nt.
Proof.
  unfold sum_axis0. induction table as [|r table IH]; intros H; cbn [fold_right].
  - apply repeat_length.
  - rewrite add_rows_length; [apply H; now left|]. rewrite IH; [symmetry; apply H; now left|]. intros r' Hr. apply H. now right.
Qed.

Lemma nth_repeat0 j nt : nth j (repeat 0 nt) 0 = 0.
Proof. revert j. induction nt as [|nt IH]; intros [|j]; cbn; auto. Qed.

Lemma sum_axis0_nth nt (table : list (list R)) j : (forall r, In r table -> length r = nt) ->
  nth j (sum_axis0 nt table) 0 = total (map (fun r => nth j r 0) table).
Proof.
  unfold sum_axis0. induction table as [|r table IH]; intros H; cbn [fold_right map total].
  - apply nth_repeat0.
  - rewrite add_rows_nth.
    + rewrite IH; [reflexivity|]. intros r' Hr. apply H. now right.
    + fold (sum_axis0 nt table). rewrite (sum_axis0_length nt table); [symmetry; apply H; now left|]. intros r' Hr. apply H. now right.
Qed.

Lemma combine_maps {X Y Z} (f : X -> Y) (g : X -> Z) l : combine (map f l) (map g l) = map (fun x => (f x, g x)) l.
Proof. induction l as [|x l IH]; cbn; [reflexivity|]. now rewrite IH. Qed.

Lemma nth_map0 {X} (f : X -> R) l j d : (j < length l)%nat -> nth j (map f l) 0 = f (nth j l d).
Proof.
  intros H. rewrite nth_indep with (d' := f d) by now rewrite map_length. apply map_nth.
Qed.

Lemma nth_scale j (row : list R) w : nth j (map (fun x => x * w) row) 0 = nth j row 0 * w.
Proof. revert j. induction row as [|x row IH]; intros [|j]; cbn; try lra. apply IH. Qed.

(** Weighted column sums of a table with one row per halo. *)
Lemma column_sum {X} nt (g : X -> list R) (w : X -> R) r j : (forall h, In h r -> length (g h) = nt) ->
  nth j (sum_axis0 nt (scale_rows (map g r) (map w r))) 0 = total (map (fun h => w h * nth j (g h) 0) r) /\
  length (sum_axis0 nt (scale_rows (map g r) (map w r))) = nt.
Proof.
  intros H. unfold scale_rows. rewrite combine_maps, map_map. cbn [fst snd].
  assert (Q : forall r0, In r0 (map (fun x : X => map (fun x0 : R => nmul x0 (w x)) (g x)) r) -> length r0 = nt).
  { intros r0 H0. apply in_map_iff in H0 as (h & <- & Hh). rewrite map_length. now apply H. }
  split; [|now apply sum_axis0_length].
  rewrite sum_axis0_nth by exact Q. rewrite map_map. f_equal. apply map_ext. intros h.
  change (nth j (map (fun x0 : R => x0 * w h) (g h)) 0 = w h * nth j (g h) 0). rewrite nth_scale. lra.
Qed.

Lemma nth_sqdev j (x y : list R) : length y = length x -> (j < length x)%nat ->
  nth j (map (fun a : R * R => (fst a - snd a) * (fst a - snd a)) (combine x y)) 0 = (nth j x 0 - nth j y 0) ^ 2.
Proof.
  revert y j. induction x as [|a x IH]; intros [|b y] [|j] H Hj; cbn in *; try discriminate; try lia; try ring. apply IH; lia.
Qed.

(** ** Moments *)

Lemma total_app a b : total (a ++ b) = total a + total b.
Proof. unfold total. induction a as [|x a IH]; cbn; [lra|]. rewrite IH. lra. Qed.

Lemma total_ext {X} (f g : X -> R) l : (forall x, In x l -> f x = g x) -> total (map f l) = total (map g l).
Proof. intros H. f_equal. now apply map_ext_in. Qed.

Lemma moments_eval nt (r : list (HaloPair R)) mean std fp :
  (forall h, In h r -> length (pr_log_mah_early h) = nt /\ length (pr_log_mah_late h) = nt) ->
  moments nt r = (mean, std, fp) ->
  length mean = nt /\ length std = nt /\ fp = repeat (1/2) nt /\
  forall j, (j < nt)%nat -> nth j mean 0 = weighted_mean (sample_at r j) /\
    nth j std 0 = sqrt (weighted_variance (sample_at r j)).
Proof.
  intros H E. unfold moments in E. cbv zeta in E.
  rewrite !map_length in E. set (n := INR (length r)) in E.
  set (we := fun h : HaloPair R => pr_frac h / n). set (wl := fun h : HaloPair R => (1 - pr_frac h) / n).
  assert (Ee : map (fun f => nmul f (ndiv (nconst 1) (nconst n))) (map pr_frac r) = map we r).
  { rewrite map_map. apply map_ext. intros h. unfold we. cbn. unfold Rdiv. ring. }
  assert (El : map (fun f => nmul f (ndiv (nconst 1) (nconst n))) (map (fun f => nsub (nconst 1) f) (map pr_frac r)) = map wl r).
  { rewrite !map_map. apply map_ext. intros h. unfold wl. cbn. unfold Rdiv. ring. }
  rewrite Ee, El in E. clear Ee El.
  injection E as Em Es Ef.
  assert (Me : forall h, In h r -> length (pr_log_mah_early h) = nt) by (intros h Hh; now apply H).
  assert (Ml : forall h, In h r -> length (pr_log_mah_late h) = nt) by (intros h Hh; now apply H).
  pose proof (fun j => column_sum nt pr_log_mah_early we r j Me) as Ce.
  pose proof (fun j => column_sum nt pr_log_mah_late wl r j Ml) as Cl.
  rewrite Em in Es, Ef.
  assert (Lm : length mean = nt).
  { rewrite <- Em, add_rows_length; [apply (Ce 0%nat)|]. rewrite (proj2 (Cl 0%nat)), (proj2 (Ce 0%nat)). reflexivity. }
  assert (Nm : forall j, nth j mean 0 = weighted_mean (sample_at r j)).
  { intros j. rewrite <- Em, add_rows_nth; [|rewrite (proj2 (Cl 0%nat)), (proj2 (Ce 0%nat)); reflexivity].
    rewrite (proj1 (Ce j)), (proj1 (Cl j)). unfold weighted_mean, sample_at. rewrite map_app, total_app, !map_map. reflexivity. }
  assert (Sq : forall gg : HaloPair R -> list R, sq_dev (map gg r) mean =
     map (fun h => map (fun a : R * R => (fst a - snd a) * (fst a - snd a)) (combine (gg h) mean)) r).
  { intros gg. unfold sq_dev. now rewrite map_map. }
  rewrite !Sq in Es.
  assert (De : forall gg, (forall h, In h r -> length (gg h) = nt) -> forall h, In h r ->
     length (map (fun a : R * R => (fst a - snd a) * (fst a - snd a)) (combine (gg h) mean)) = nt).
  { intros gg Hg h Hh. rewrite map_length, combine_length, (Hg h Hh), Lm. apply Nat.min_id. }
  pose proof (fun j => column_sum nt _ we r j (De _ Me)) as Ve.
  pose proof (fun j => column_sum nt _ wl r j (De _ Ml)) as Vl.
  assert (Ls : length std = nt).
  { rewrite <- Es, map_length, add_rows_length; [apply (Ve 0%nat)|]. rewrite (proj2 (Vl 0%nat)), (proj2 (Ve 0%nat)). reflexivity. }
  refine (conj Lm (conj Ls (conj _ _))).
  - rewrite <- Ef. clear - Lm. revert nt Lm. induction mean as [|x mean IH]; intros [|nt] L; cbn in *; try discriminate; [reflexivity|].
    rewrite (IH nt) by lia. f_equal. lra.
  - intros j Hj. split; [apply Nm|]. rewrite <- Es.
    rewrite nth_map0 with (d := 0) by (rewrite <- Es, map_length in Ls; rewrite Ls; exact Hj). f_equal.
    rewrite add_rows_nth by (rewrite (proj2 (Vl 0%nat)), (proj2 (Ve 0%nat)); reflexivity).
    rewrite (proj1 (Ve j)), (proj1 (Vl j)). unfold weighted_variance. rewrite <- Nm. unfold sample_at. rewrite map_app, total_app, !map_map.
    f_equal; apply total_ext; intros h Hh; cbn [fst snd]; rewrite nth_sqdev; try reflexivity.
    + rewrite Lm. symmetry. now apply Me.
    + now rewrite Me.
    + rewrite Lm. symmetry. now apply Ml.
    + now rewrite Ml.
Qed.

Lemma sample_probability (r : list (HaloPair R)) j : r <> [] -> (forall h, In h r -> 0 <= pr_frac h <= 1) ->
  probability_weights (sample_at r j).
Proof.
  intros Hr Hf. assert (Hn : 0 < INR (length r)).
  { apply lt_0_INR. destruct r; [congruence|cbn; lia]. }
  assert (Hi : 0 < / INR (length r)) by now apply Rinv_0_lt_compat.
  split.
  - intros w x Hin. unfold sample_at in Hin. apply in_app_or in Hin as [Hin|Hin];
      apply in_map_iff in Hin as (h & E & Hh); injection E as <- <-; specialize (Hf h Hh); unfold Rdiv; nra.
  - unfold sample_at. rewrite map_app, total_app, !map_map. cbn [fst].
    assert (Q : forall m l, total (map (fun h : HaloPair R => pr_frac h / m) l) + total (map (fun h => (1 - pr_frac h) / m) l) = INR (length l) / m).
    { clear. intros m l. induction l as [|h l IH]; [cbn; unfold Rdiv; ring|]. cbn [map total fold_right length] in *. rewrite S_INR.
      unfold total in IH. unfold Rdiv in *. lra. }
    rewrite Q. field. lra.
Qed.

Lemma weighted_mean_bounds s : probability_weights s -> exists lo hi, In lo (map snd s) /\ In hi (map snd s) /\
  lo <= weighted_mean s <= hi /\ forall x, In x (map snd s) -> lo <= x <= hi.
Proof.
  intros [Hw Ht].
  assert (Hne : s <> []) by (intros ->; cbn in Ht; lra).
  assert (Q : exists lo hi, In lo (map snd s) /\ In hi (map snd s) /\ forall x, In x (map snd s) -> lo <= x <= hi).
  { clear Hw Ht. induction s as [|[w x] s IH]; [congruence|]. destruct s as [|a s].
    - exists x, x. cbn. refine (conj _ (conj _ _)); auto. intros y [<-|[]]. lra.
    - destruct IH as (lo & hi & H1 & H2 & H3); [discriminate|].
      exists (Rmin x lo), (Rmax x hi). refine (conj _ (conj _ _)).
      + unfold Rmin. destruct (Rle_dec x lo); [now left|now right].
      + unfold Rmax. destruct (Rle_dec x hi); [now right|now left].
      + intros y [<-|Hy].
        * cbn [snd]. split; [apply Rmin_l|apply Rmax_l].
        * specialize (H3 y Hy). pose proof (Rmin_r x lo). pose proof (Rmax_r x hi). lra. }
  destruct Q as (lo & hi & H1 & H2 & H3). exists lo, hi. refine (conj H1 (conj H2 (conj _ H3))).
  assert (B : lo * total (map fst s) <= weighted_mean s <= hi * total (map fst s)).
  { clear Ht Hne H1 H2. unfold weighted_mean. induction s as [|[w x] s IH]; [cbn; lra|].
    cbn [map total fold_right fst snd].
    assert (IH' : lo * total (map fst s) <= total (map (fun wx => fst wx * snd wx) s) <= hi * total (map fst s)).
    { apply IH.
      - intros w' x' Hin. apply (Hw w' x'). now right.
      - intros y Hy. apply H3. now right. }
    specialize (H3 x (or_introl eq_refl)). specialize (Hw w x (or_introl eq_refl)). unfold total in *. cbn in H3. nra. }
  rewrite Ht in B. lra.
Qed.

Lemma halo_sample_inv (G : rng R) g (p : rec R) tarr lgm t k lgt0 n r tr :
  mc_diffmah_halo_sample TN G g p tarr lgm t k lgt0 n = (Ok r, tr) ->
  length r = n /\ below k tr /\
  forall i, (i < n)%nat -> exists h tri, nth_error r i = Some h /\ mc_diffmah_single TN G g p tarr lgm t (Split k n i) lgt0 = (Ok h, tri).
Proof.
  unfold mc_diffmah_halo_sample, mc_diffmah_single_vmap. intros H. apply vmap3_inv in H.
  rewrite !map_length, !repeat_length in H. destruct H as (_ & _ & L & trs & Lt & -> & H).
  assert (Q : forall i, (i < n)%nat -> exists h tri, nth_error r i = Some h /\ nth_error trs i = Some tri /\
     mc_diffmah_single TN G g p tarr lgm t (Split k n i) lgt0 = (Ok h, tri)).
  { intros i Hi.
    assert (Z : forall x : R, nth_error (map (nadd x) (repeat (nconst 0) n)) i = Some x).
    { intros x. rewrite (map_nth_error (nadd x) i (repeat (nconst 0) n) (d := 0)).
      - cbn. now rewrite Rplus_0_r.
      - rewrite (nth_error_nth' _ 0); [|now rewrite repeat_length]. f_equal. apply nth_repeat0. }
    apply (H i lgm t (Split k n i)); [apply Z|apply Z|now apply split_nth]. }
  refine (conj L (conj _ _)).
  - apply below_concat. intros tri Htri. apply In_nth_error in Htri as [i Hi].
    assert (B : (i < n)%nat) by (rewrite <- Lt; apply nth_error_Some; congruence).
    destruct (Q i B) as (h & tri' & _ & Ht & E). rewrite Hi in Ht. injection Ht as <-.
    apply single_mah_inv in E. destruct E as (E & _). apply single_below in E.
    apply below_trans with (Split k n i); [apply desc_split|exact E].
  - intros i Hi. destruct (Q i Hi) as (h & tri & H1 & _ & H2). eauto.
Qed.

Lemma predict_inv (G : rng R) g (p : rec R) tarr lgm t k lgt0 mean std fp tr : legal_pop p ->
  predict_mah_moments_singlebin TN G g p tarr lgm t k lgt0 = (Ok (mean, std, fp), tr) ->
  below k tr /\
  exists r, length r = 200%nat /\
    (forall i, (i < 200)%nat -> exists h tri, nth_error r i = Some h /\
       mc_diffmah_single TN G g p tarr lgm t (Split k 200 i) lgt0 = (Ok h, tri)) /\
    length mean = length tarr /\ length std = length tarr /\ fp = repeat (1/2) (length tarr) /\
    forall j, (j < length tarr)%nat ->
      probability_weights (sample_at r j) /\
      nth j mean 0 = weighted_mean (sample_at r j) /\
      nth j std 0 = sqrt (weighted_variance (sample_at r j)).
Proof.
  intros L H. unfold predict_mah_moments_singlebin in H. apply mbind_ok in H. destruct H as (r & t1 & t2 & H & E & ->).
  apply mret_ok in E. destruct E as [E ->]. rewrite app_nil_r. apply halo_sample_inv in H. destruct H as (Lr & B & H).
  split; [exact B|]. exists r. unfold NH_PER_M0BIN in *. refine (conj Lr (conj H _)).
  assert (Q : forall h, In h r -> (length (pr_log_mah_early h) = length tarr /\ length (pr_log_mah_late h) = length tarr) /\ 0 <= pr_frac h <= 1).
  { intros h Hh. apply In_nth_error in Hh as [i Hi]. assert (Bi : (i < 200)%nat) by (rewrite <- Lr; apply nth_error_Some; congruence).
    destruct (H i Bi) as (h' & tri & H1 & H2). rewrite Hi in H1. injection H1 as <-.
    apply single_mah_inv in H2. destruct H2 as (H2 & Me & Ml).
    rewrite mah_singlehalo_map in Me, Ml. injection Me as _ Me. injection Ml as _ Ml.
    split; [rewrite <- Me, <- Ml, !map_length; now split|]. apply single_inv in H2. destruct H2 as (_ & _ & _ & _ & _ & _ & _ & _ & _ & _ & _ & Hf & _).
    destruct (frac_early_range p lgm t) as (f & Ef & Bf); [apply pop_components_provided; [in_list|exact L]|].
    rewrite Ef in Hf. apply Ok_inj in Hf. lra. }
  symmetry in E. apply moments_eval in E; [|intros h Hh; now apply Q]. destruct E as (L1 & L2 & E3 & E4).
  refine (conj L1 (conj L2 (conj E3 _))). intros j Hj. split; [|now apply E4].
  apply sample_probability; [intros ->; discriminate Lr|]. intros h Hh. now apply Q.
Qed.

Lemma predict_total (G : rng R) g (p : rec R) tarr lgm t k lgt0 : legal_pop p -> shapely G ->
  exists mean std fp tr, predict_mah_moments_singlebin TN G g p tarr lgm t k lgt0 = (Ok (mean, std, fp), tr).
Proof.
  intros L HG. unfold predict_mah_moments_singlebin.
  destruct (vmap3_total (fun m t k => mc_diffmah_single TN G g p tarr m t k lgt0)
    (map (nadd lgm) (repeat (nconst 0) NH_PER_M0BIN)) (map (nadd t) (repeat (nconst 0) NH_PER_M0BIN)) (split k NH_PER_M0BIN)) as (r & tr & Er).
  - now rewrite !map_length.
  - now rewrite split_length, map_length, repeat_length.
  - intros m t' k'. destruct (single_total G g p m t' k' lgt0 None L HG) as (e & l & f & tr & Es).
    eapply single_mah_total. exact Es.
  - destruct (moments (length tarr) r) as [[mean std] fp] eqn:E. do 4 eexists. eapply mbind_eval; [exact Er|].
    rewrite E. reflexivity.
Qed.

(** ** Losses *)

Lemma fold_nonneg l a : (forall x, In x l -> 0 <= x) -> 0 <= a -> 0 <= fold_left Rplus l a /\
  (fold_left Rplus l a = 0 <-> a = 0 /\ forall x, In x l -> x = 0).
Proof.
  revert a. induction l as [|y l IH]; intros a H Ha; cbn [fold_left].
  - split; [exact Ha|]. split; [intros ->; split; [reflexivity|intros x []]|now intros []].
  - assert (Hy : 0 <= y) by (apply H; now left).
    destruct (IH (a + y)) as [I1 I2]; [intros x Hx; apply H; now right|lra|]. split; [exact I1|]. rewrite I2. split.
    + intros [E1 E2]. split; [lra|]. intros x [<-|Hx]; [lra|now apply E2].
    + intros [-> E2]. split; [rewrite (E2 y (or_introl eq_refl)); lra|]. intros x Hx. apply E2. now right.
Qed.

Lemma nmean_nonneg (l : list R) : l <> [] -> (forall x, In x l -> 0 <= x) -> 0 <= nmean l /\ (nmean l = 0 <-> forall x, In x l -> x = 0).
Proof.
  intros Hl H. unfold nmean, nsum. change (0 <= fold_left Rplus l 0 / INR (length l) /\
    (fold_left Rplus l 0 / INR (length l) = 0 <-> forall x, In x l -> x = 0)).
  destruct (fold_nonneg l 0 H (Rle_refl 0)) as [H1 H2].
  assert (Hn : 0 < INR (length l)). { apply lt_0_INR. destruct l; [congruence|cbn; lia]. }
  pose proof (Rinv_0_lt_compat _ Hn) as Hi. split; [unfold Rdiv; nra|].
  assert (E : fold_left Rplus l 0 / INR (length l) = 0 <-> fold_left Rplus l 0 = 0).
  { unfold Rdiv. split; [intros E; apply Rmult_integral in E; destruct E; lra|intros ->; ring]. }
  rewrite E, H2. split; [now intros []|]. intros Q. now split.
Qed.

Lemma mse_facts (x y : list R) v : x <> [] -> mse x y = Ok v -> 0 <= v /\ (v = 0 <-> x = y).
Proof.
  unfold mse. destruct (Nat.eqb_spec (length x) (length y)) as [E|]; [|discriminate]. intros Hx H. apply Ok_inj in H. subst v.
  unfold pop_mse.
  change (map _ (combine x y)) with (map (fun a : R * R => (snd a - fst a) * (snd a - fst a)) (combine x y)).
  destruct (nmean_nonneg (map (fun a : R * R => (snd a - fst a) * (snd a - fst a)) (combine x y))) as [H1 H2].
  - destruct x, y; try discriminate; congruence.
  - intros z Hz. apply in_map_iff in Hz as (a & <- & _). apply Rle_0_sqr.
  - split; [exact H1|]. rewrite H2. split.
    + clear H1 H2 Hx. revert y E. induction x as [|a x IH]; intros [|b y] E H; try discriminate; [reflexivity|]. f_equal.
      * specialize (H ((b - a) * (b - a)) (or_introl eq_refl)). apply Rmult_integral in H. destruct H; lra.
      * apply IH; [now injection E|]. intros z Hz. apply H. now right.
    + intros <-. intros z Hz. apply in_map_iff in Hz as ([a b] & <- & Hab). cbn.
      assert (a = b); [|subst; ring]. clear - Hab. induction x as [|c x IH]; [destruct Hab|]. cbn in Hab. destruct Hab as [E|Hab]; [congruence|auto].
Qed.

(** The two moments of the prediction equal the targets. *)
Definition matches (G : rng R) g (p : rec R) (b : Bin R) k lgt0 : Prop :=
  exists fp tr, predict_mah_moments_singlebin TN G g p (bin_tarr b) (bin_lgm_obs b) (bin_t_obs b) k lgt0 =
    (Ok (bin_mean b, bin_std b, fp), tr).

Lemma singlebin_loss (G : rng R) g (p : rec R) (b : Bin R) k lgt0 v tr : legal_pop p -> bin_tarr b <> [] ->
  loss_mah_moments_singlebin TN G g p b k lgt0 = (Ok v, tr) ->
  0 <= v /\ (v = 0 <-> matches G g p b k lgt0) /\ below k tr.
Proof.
  intros L Ht H. unfold loss_mah_moments_singlebin in H. apply mbind_ok in H. destruct H as ([[mean std] fp] & t1 & t2 & H1 & H & ->).
  apply mbind_ok in H. destruct H as (l1 & t3 & t4 & E1 & H & ->). apply mlift_ok in E1. destruct E1 as [E1 ->].
  apply mbind_ok in H. destruct H as (l2 & t5 & t6 & E2 & H & ->). apply mlift_ok in E2. destruct E2 as [E2 ->].
  apply mret_ok in H. destruct H as [E ->]. cbn in E. subst v.
  pose proof (predict_inv _ _ _ _ _ _ _ _ _ _ _ _ L H1) as (B & r & _ & _ & Lm & Ls & _).
  assert (Nm : mean <> []) by (intros ->; cbn in Lm; destruct (bin_tarr b); [congruence|discriminate]).
  assert (Ns : std <> []) by (intros ->; cbn in Ls; destruct (bin_tarr b); [congruence|discriminate]).
  destruct (mse_facts _ _ _ Nm E1) as [P1 Q1]. destruct (mse_facts _ _ _ Ns E2) as [P2 Q2].
  refine (conj _ (conj _ _)); [lra| |rewrite !app_nil_r; exact B]. split.
  - intros E. exists fp, t1. rewrite <- (proj1 Q1), <- (proj1 Q2) by lra. exact H1.
  - intros (fp' & tr' & H2). rewrite H1 in H2. injection H2 as E3 E4 _ _. rewrite (proj2 Q1 E3), (proj2 Q2 E4). lra.
Qed.

Lemma singlebin_total (G : rng R) g (p : rec R) (b : Bin R) k lgt0 : legal_pop p -> shapely G ->
  length (bin_mean b) = length (bin_tarr b) -> length (bin_std b) = length (bin_tarr b) ->
  exists v tr, loss_mah_moments_singlebin TN G g p b k lgt0 = (Ok v, tr).
Proof.
  intros L HG Hm Hs. destruct (predict_total G g p (bin_tarr b) (bin_lgm_obs b) (bin_t_obs b) k lgt0 L HG) as (mean & std & fp & tr & E).
  pose proof (predict_inv _ _ _ _ _ _ _ _ _ _ _ _ L E) as (_ & r & _ & _ & Lm & Ls & _).
  do 2 eexists. unfold loss_mah_moments_singlebin. eapply mbind_eval; [exact E|].
  eapply mbind_eval; [apply mlift_eval; unfold mse; rewrite Lm, Hm, Nat.eqb_refl; reflexivity|].
  eapply mbind_eval; [apply mlift_eval; unfold mse; rewrite Ls, Hs, Nat.eqb_refl; reflexivity|]. reflexivity.
Qed.

Lemma multibin_loss (G : rng R) g (p : rec R) (bins : list (Bin R)) k lgt0 v tr : legal_pop p -> bins <> [] ->
  (forall b, In b bins -> bin_tarr b <> []) ->
  loss_mah_moments_multibin TN G g p bins k lgt0 = (Ok v, tr) ->
  0 <= v /\
  (v = 0 <-> forall i b, nth_error bins i = Some b -> matches G g p b (Split k (length bins) i) lgt0) /\
  below k tr /\
  exists vs, length vs = length bins /\ v = total vs / INR (length bins) /\
    forall i b, nth_error bins i = Some b -> exists x tri, nth_error vs i = Some x /\
      loss_mah_moments_singlebin TN G g p b (Split k (length bins) i) lgt0 = (Ok x, tri).
Proof.
  intros L Hb Ht H. unfold loss_mah_moments_multibin in H. apply mbind_ok in H. destruct H as (vs & t1 & t2 & H & E & ->).
  apply mret_ok in E. destruct E as [E ->]. rewrite app_nil_r.
  apply mseq_map_inv in H. destruct H as (Lv & trs & Lt & -> & H).
  rewrite combine_length, split_length, Nat.min_id in Lv, Lt.
  assert (Q : forall i b, nth_error bins i = Some b -> exists x tri, nth_error vs i = Some x /\ nth_error trs i = Some tri /\
      loss_mah_moments_singlebin TN G g p b (Split k (length bins) i) lgt0 = (Ok x, tri)).
  { intros i b Hi. assert (Bi : (i < length bins)%nat) by (apply nth_error_Some; congruence).
    destruct (H i (b, Split k (length bins) i)) as (x & tri & H1 & H2 & H3); [apply nth_combine; [exact Hi|now apply split_nth]|]. eauto. }
  assert (Q' : forall i x, nth_error vs i = Some x -> exists b, nth_error bins i = Some b).
  { intros i x Hi. assert (Bi : (i < length bins)%nat) by (rewrite <- Lv; apply nth_error_Some; congruence).
    destruct (nth_error bins i) eqn:E'; [eauto|]. apply nth_error_None in E'. lia. }
  assert (NN : forall x, In x vs -> 0 <= x).
  { intros x Hx. apply In_nth_error in Hx as [i Hi]. destruct (Q' i x Hi) as [b Hbi]. destruct (Q i b Hbi) as (x' & tri & H1 & _ & H3).
    rewrite Hi in H1. injection H1 as <-. eapply singlebin_loss; [exact L| |exact H3]. apply Ht. eapply nth_error_In. exact Hbi. }
  assert (Nv : vs <> []) by (intros ->; destruct bins; [congruence|discriminate]).
  destruct (nmean_nonneg vs Nv NN) as [M1 M2].
  refine (conj _ (conj _ (conj _ _))).
  - now rewrite E.
  - rewrite E, M2. split.
    + intros Z i b Hi. destruct (Q i b Hi) as (x & tri & H1 & _ & H3).
      apply singlebin_loss in H3; [|exact L|apply Ht; eapply nth_error_In; exact Hi]. apply H3. apply Z. eapply nth_error_In. exact H1.
    + intros Z x Hx. apply In_nth_error in Hx as [i Hi]. destruct (Q' i x Hi) as [b Hbi]. destruct (Q i b Hbi) as (x' & tri & H1 & _ & H3).
      rewrite Hi in H1. injection H1 as <-. apply singlebin_loss in H3; [|exact L|apply Ht; eapply nth_error_In; exact Hbi].
      apply H3. now apply Z.
  - apply below_concat. intros tri Htri. apply In_nth_error in Htri as [i Hi].
    assert (Bi : (i < length bins)%nat) by (rewrite <- Lt; apply nth_error_Some; congruence).
    destruct (nth_error bins i) as [b|] eqn:E'; [|apply nth_error_None in E'; lia].
    destruct (Q i b E') as (x & tri' & _ & H2 & H3). rewrite Hi in H2. injection H2 as <-.
    apply singlebin_loss in H3; [|exact L|apply Ht; eapply nth_error_In; exact E'].
    eapply below_trans; [apply desc_split|apply H3].
  - exists vs. refine (conj Lv (conj _ _)).
    + rewrite E, <- Lv. unfold nmean, nsum. change (fold_left Rplus vs 0 / INR (length vs) = total vs / INR (length vs)).
      f_equal. unfold total. apply fold_symmetric; intros; ring.
    + intros i b Hi. destruct (Q i b Hi) as (x & tri & H1 & _ & H3). eauto.
Qed.

Lemma multibin_total (G : rng R) g (p : rec R) (bins : list (Bin R)) k lgt0 : legal_pop p -> shapely G ->
  (forall b, In b bins -> length (bin_mean b) = length (bin_tarr b) /\ length (bin_std b) = length (bin_tarr b)) ->
  exists v tr, loss_mah_moments_multibin TN G g p bins k lgt0 = (Ok v, tr).
Proof.
  intros L HG Hb. unfold loss_mah_moments_multibin.
  destruct (mseq_map_total (fun a => loss_mah_moments_singlebin TN G g p (fst a) (snd a) lgt0) (combine bins (split k (length bins)))) as (rs & tr & E).
  - intros [b k'] Hin. apply in_combine_l in Hin. destruct (Hb b Hin). now apply singlebin_total.
  - do 2 eexists. eapply mbind_eval; [exact E|reflexivity].
Qed.

Lemma lift_step {X Y} (x : X) (f : X -> mc Y) : mbind (mlift (Ok x)) f = f x.
Proof. unfold mbind. cbn. now destruct (f x). Qed.

Lemma u_params_loss (G : rng R) (u d : rec R) (bins : list (Bin R)) k lgt0 u' p :
  DEFAULT_DIFFMAHPOP_U_PARAMS = Ok d -> replace d u = Ok u' -> get_diffmahpop_params_from_u_params u' = Ok p ->
  loss_mah_moments_multibin_u_params TN G u bins k lgt0 = loss_mah_moments_multibin TN G Cen p bins k lgt0.
Proof.
  intros E1 E2 E3. unfold loss_mah_moments_multibin_u_params. rewrite E1, lift_step, E2, lift_step, E3, lift_step. reflexivity.
Qed.

Lemma censat_u_params_loss (G : rng R) (u d : rec R) (bc bs : list (Bin R)) k lgt0 u' p :
  DEFAULT_DIFFMAHPOP_U_PARAMS = Ok d -> replace d u = Ok u' -> get_diffmahpop_params_from_u_params u' = Ok p ->
  loss_mah_moments_multibin_censat_u_params TN G u bc bs k lgt0 = loss_mah_moments_multibin_censat TN G p bc bs k lgt0.
Proof.
  intros E1 E2 E3. unfold loss_mah_moments_multibin_censat_u_params. rewrite E1, lift_step, E2, lift_step, E3, lift_step. reflexivity.
Qed.

Lemma censat_loss (G : rng R) (v : rec R) (bc bs : list (Bin R)) k lgt0 x tr :
  loss_mah_moments_multibin_censat TN G v bc bs k lgt0 = (Ok x, tr) ->
  exists d p xc tc xs ts, DEFAULT_DIFFMAHPOP_PARAMS = Ok d /\ replace d v = Ok p /\
    loss_mah_moments_multibin TN G Cen p bc (Split k 2 0) lgt0 = (Ok xc, tc) /\
    loss_mah_moments_multibin TN G Sat p bs (Split k 2 1) lgt0 = (Ok xs, ts) /\ x = xc + xs /\ tr = tc ++ ts.
Proof.
  unfold loss_mah_moments_multibin_censat. intros H.
  apply mbind_ok in H. destruct H as (d & t1 & t2 & E & H & ->). apply mlift_ok in E. destruct E as [E1 ->].
  apply mbind_ok in H. destruct H as (p & t3 & t4 & E & H & ->). apply mlift_ok in E. destruct E as [E2 ->].
  apply mbind_ok in H. destruct H as (xc & tc & t5 & E3 & H & ->).
  apply mbind_ok in H. destruct H as (xs & ts & t6 & E4 & H & ->).
  apply mret_ok in H. destruct H as [-> ->]. exists d, p, xc, tc, xs, ts. rewrite !app_nil_r. cbn [app]. auto 10.
Qed.

Lemma censat_total (G : rng R) (v d p : rec R) (bc bs : list (Bin R)) k lgt0 : legal_pop p -> shapely G ->
  DEFAULT_DIFFMAHPOP_PARAMS = Ok d -> replace d v = Ok p ->
  (forall b, In b (bc ++ bs) -> length (bin_mean b) = length (bin_tarr b) /\ length (bin_std b) = length (bin_tarr b)) ->
  exists x tr, loss_mah_moments_multibin_censat TN G v bc bs k lgt0 = (Ok x, tr).
Proof.
  intros L HG E1 E2 Hb.
  destruct (multibin_total G Cen p bc (Split k 2 0) lgt0 L HG) as (xc & tc & E3); [intros b H; apply Hb, in_or_app; now left|].
  destruct (multibin_total G Sat p bs (Split k 2 1) lgt0 L HG) as (xs & ts & E4); [intros b H; apply Hb, in_or_app; now right|].
  do 2 eexists. unfold loss_mah_moments_multibin_censat.
  eapply mbind_eval; [apply mlift_eval, E1|]. eapply mbind_eval; [apply mlift_eval, E2|].
  eapply mbind_eval; [exact E3|]. eapply mbind_eval; [exact E4|]. reflexivity.
Qed.
