(** Lemmas about the diagnostic figures. *)

From Coq Require Import Reals String List Bool Arith Lia Lra.
From Verif Require Import Model_Num RealAux Model_Base Model_Kernels Model_Utils Model_PopBase Model_PopData
  Model_PopParams Model_PopKernels Model_PopMC Model_Plots Spec_Pop Spec_PopMC Spec_Plots Spec_TruncNorm
  Proofs_PopBase Proofs_PopInterp Proofs_PopTpeak Proofs_PopMC Proofs_PopMC2 Proofs_PopLoss.
Import ListNotations.
Local Open Scope R_scope.
Local Open Scope list_scope.

(** ** Arrays *)

Lemma zip_with_length f x y : length y = length x -> length (zip_with f x y) = length x.
Proof. revert y. induction x as [|a x IH]; intros [|b y] H; try discriminate H; cbn; [reflexivity|]. f_equal. apply IH. now injection H. Qed.

Lemma zip_with_nth f x y i : length y = length x -> (i < length x)%nat ->
  nth i (zip_with f x y) 0 = f (nth i x 0) (nth i y 0).
Proof.
  revert y i. induction x as [|a x IH]; intros [|b y] i H Hi; try discriminate H; cbn in *; [lia|].
  destruct i; [reflexivity|]. apply IH; [now injection H|lia].
Qed.

Lemma arr_op_ok f x y z : arr_op f x y = Ok z ->
  length y = length x /\ length z = length x /\ forall i, (i < length x)%nat -> nth i z 0 = f (nth i x 0) (nth i y 0).
Proof.
  unfold arr_op. destruct (Nat.eqb_spec (length x) (length y)) as [E|E]; [|discriminate]. intros [= <-].
  split; [congruence|]. split; [now apply zip_with_length|]. intros i Hi. now apply zip_with_nth.
Qed.

Lemma arr_op_total f x y : length y = length x -> exists z, arr_op f x y = Ok z.
Proof. intros H. unfold arr_op. rewrite H, Nat.eqb_refl. eauto. Qed.

Lemma plot_ok fmt xs ys a : plot fmt xs ys = Ok a -> a = Curve fmt xs ys.
Proof. unfold plot. destruct (Nat.eqb _ _); [|discriminate]. now intros [= <-]. Qed.
Lemma plot_total fmt xs ys : length ys = length xs -> plot fmt xs ys = Ok (Curve fmt xs ys).
Proof. intros H. unfold plot. now rewrite H, Nat.eqb_refl. Qed.
Lemma fill_ok xs lo hi a : fill_between xs lo hi = Ok a -> a = Band xs lo hi.
Proof. unfold fill_between. destruct (_ && _)%bool; [|discriminate]. now intros [= <-]. Qed.
Lemma fill_total xs lo hi : length lo = length xs -> length hi = length xs -> fill_between xs lo hi = Ok (Band xs lo hi).
Proof. intros H H'. unfold fill_between. now rewrite H, H', !Nat.eqb_refl. Qed.

(** ** argmin *)

Lemma argmin_from_spec l : forall pre best vbest, nth_error (pre ++ l) best = Some vbest -> (best < length pre)%nat ->
  (forall v, In v pre -> vbest <= v) ->
  exists v, nth_error (pre ++ l) (argmin_from (length pre) best vbest l) = Some v /\ forall w, In w (pre ++ l) -> v <= w.
Proof.
  induction l as [|x l IH]; intros pre best vbest E B H; cbn [argmin_from].
  - exists vbest. split; [exact E|]. intros w Hw. rewrite app_nil_r in Hw. auto.
  - replace (pre ++ x :: l) with ((pre ++ [x]) ++ l) by (rewrite <- app_assoc; reflexivity).
    replace (S (length pre)) with (length (pre ++ [x])) by (rewrite app_length; cbn; lia).
    destruct (Rltb x vbest) eqn:L.
    + apply Rltb_true in L. apply IH.
      * rewrite <- app_assoc, nth_error_app2 by lia. now rewrite Nat.sub_diag.
      * rewrite app_length. cbn. lia.
      * intros v Hv. apply in_app_or in Hv. destruct Hv as [Hv|[<-|[]]]; [specialize (H v Hv)|]; lra.
    + apply Rltb_false in L. apply IH.
      * rewrite <- app_assoc. exact E.
      * rewrite app_length. cbn. lia.
      * intros v Hv. apply in_app_or in Hv. destruct Hv as [Hv|[<-|[]]]; [auto|exact L].
Qed.

Lemma np_argmin_spec l : l <> [] -> exists i v, np_argmin l = Ok i /\ nth_error l i = Some v /\ forall w, In w l -> v <= w.
Proof.
  destruct l as [|x l]; [congruence|]. intros _. unfold np_argmin.
  destruct (argmin_from_spec l [x] 0 x eq_refl) as (v & E & H); [cbn; lia|intros v [<-|[]]; lra|].
  exists (argmin_from 1 0 x l), v. auto.
Qed.

(** The row picked by argmin of a distance. *)
Lemma pick_total {X} (d : X -> R) (l : list X) : l <> [] ->
  exists i b, np_argmin (map d l) = Ok i /\ row l i = Ok b /\ In b l /\ forall b', In b' l -> d b <= d b'.
Proof.
  intros Hl. destruct (np_argmin_spec (map d l)) as (i & v & E & N & H); [now destruct l|].
  rewrite nth_error_map in N. destruct (nth_error l i) as [b|] eqn:Nb; [|discriminate]. injection N as <-.
  exists i, b. split; [exact E|]. split; [unfold row; now rewrite Nb|]. split; [eapply nth_error_In; exact Nb|].
  intros b' Hb'. apply H. now apply in_map.
Qed.

Lemma pick_ok {X} (d : X -> R) (l : list X) i b : np_argmin (map d l) = Ok i -> row l i = Ok b ->
  In b l /\ forall b', In b' l -> d b <= d b'.
Proof.
  intros E N. assert (Hl : l <> []) by (intros ->; discriminate E).
  destruct (pick_total d l Hl) as (i' & b' & E' & N' & H). rewrite E in E'. injection E' as <-. rewrite N in N'. injection N' as <-. exact H.
Qed.

Lemma epoch_shown e t : in_epoch e t = true <-> shown e t.
Proof.
  destruct e; cbn; rewrite Rltb_true; [lra|]. unfold Rabs. destruct (Rcase_abs (t - 3)); lra.
Qed.

Lemma masses_eq g e : single_panel_masses g e = panel_masses g e.
Proof. destruct g, e; cbn; repeat f_equal; lra. Qed.

Ltac step H := apply mbind_ok in H; destruct H as (?x & ?t1 & ?t2 & ?E & H & ->).

(** ** One mass of a single panel *)

Definition mass_group (F : R -> R -> R -> R -> R -> R) (G : rng R) g (p : rec R) (b : Bin R) (gr : list artist) : Prop :=
  exists lo hi mean std fp plo phi tri,
    predict_mah_moments_singlebin F G g p (bin_tarr b) (bin_lgm_obs b) (bin_t_obs b) (Seed 0) (log10 13.79) =
      (Ok (mean, std, fp), tri) /\
    is_difference (bin_mean b) (bin_std b) lo /\ is_sum (bin_mean b) (bin_std b) hi /\
    is_difference mean std plo /\ is_sum mean std phi /\
    gr = [Band (bin_tarr b) lo hi; Curve "-" (bin_tarr b) (bin_mean b);
          Curve "--" (bin_tarr b) mean; Curve ":" (bin_tarr b) plo; Curve ":" (bin_tarr b) phi].

Lemma lgt0_eq : LGT0_SMDPL = log10 13.79.
Proof. unfold LGT0_SMDPL. reflexivity. Qed.

Lemma single_mass_inv F G g sample (p : rec R) m gr tr : single_panel_mass F G g sample p m = (Ok gr, tr) ->
  exists b, In b sample /\ (forall b', In b' sample -> Rabs (bin_lgm_obs b - m) <= Rabs (bin_lgm_obs b' - m)) /\
    mass_group F G g p b gr.
Proof.
  intros H. unfold single_panel_mass in H.
  apply mbind_ok in H. destruct H as (ih & t1 & t2 & E1 & H & ->). apply mlift_ok in E1. destruct E1 as [E1 ->].
  apply mbind_ok in H. destruct H as (b & t3 & t4 & E2 & H & ->). apply mlift_ok in E2. destruct E2 as [E2 ->].
  apply mbind_ok in H. destruct H as (lo & t5 & t6 & E3 & H & ->). apply mlift_ok in E3. destruct E3 as [E3 ->].
  apply mbind_ok in H. destruct H as (hi & t7 & t8 & E4 & H & ->). apply mlift_ok in E4. destruct E4 as [E4 ->].
  apply mbind_ok in H. destruct H as (band & t9 & t10 & E5 & H & ->). apply mlift_ok in E5. destruct E5 as [E5 ->].
  apply mbind_ok in H. destruct H as (target & t11 & t12 & E6 & H & ->). apply mlift_ok in E6. destruct E6 as [E6 ->].
  apply mbind_ok in H. destruct H as ([[mean std] fp] & t13 & t14 & E7 & H & ->).
  apply mbind_ok in H. destruct H as (plo & t15 & t16 & E8 & H & ->). apply mlift_ok in E8. destruct E8 as [E8 ->].
  apply mbind_ok in H. destruct H as (phi & t17 & t18 & E9 & H & ->). apply mlift_ok in E9. destruct E9 as [E9 ->].
  apply mbind_ok in H. destruct H as (c & t19 & t20 & E10 & H & ->). apply mlift_ok in E10. destruct E10 as [E10 ->].
  apply mbind_ok in H. destruct H as (l & t21 & t22 & E11 & H & ->). apply mlift_ok in E11. destruct E11 as [E11 ->].
  apply mbind_ok in H. destruct H as (h & t23 & t24 & E12 & H & ->). apply mlift_ok in E12. destruct E12 as [E12 ->].
  apply mret_ok in H. destruct H as [-> ->].
  destruct (pick_ok (fun b => Rabs (bin_lgm_obs b - m)) sample ih b E1 E2) as [Hin Hmin].
  exists b. split; [exact Hin|]. split; [exact Hmin|].
  apply arr_op_ok in E3, E4, E8, E9. apply fill_ok in E5. apply plot_ok in E6, E10, E11, E12. subst.
  rewrite lgt0_eq in E7. exists lo, hi, mean, std, fp, plo, phi, t13. repeat (split; [assumption|]). reflexivity.
Qed.

Lemma single_mass_total G g sample (p : rec R) m : legal_pop p -> shapely G -> sample <> [] ->
  (forall b, In b sample -> tidy b) ->
  exists gr tr, single_panel_mass TN G g sample p m = (Ok gr, tr).
Proof.
  intros L HG Hs HT. destruct (pick_total (fun b => Rabs (bin_lgm_obs b - m)) sample Hs) as (i & b & E1 & E2 & Hin & _).
  destruct (HT b Hin) as [T1 T2].
  destruct (predict_total G g p (bin_tarr b) (bin_lgm_obs b) (bin_t_obs b) (Seed 0) LGT0_SMDPL L HG) as (mean & std & fp & tr & E7).
  pose proof (predict_inv _ _ _ _ _ _ _ _ _ _ _ _ L E7) as (_ & r & _ & _ & Lm & Ls & _).
  destruct (arr_op_total Rminus (bin_mean b) (bin_std b)) as (lo & E3); [congruence|].
  destruct (arr_op_total Rplus (bin_mean b) (bin_std b)) as (hi & E4); [congruence|].
  destruct (arr_op_total Rminus mean std) as (plo & E8); [congruence|].
  destruct (arr_op_total Rplus mean std) as (phi & E9); [congruence|].
  pose proof (arr_op_ok _ _ _ _ E3) as (_ & L3 & _). pose proof (arr_op_ok _ _ _ _ E4) as (_ & L4 & _).
  pose proof (arr_op_ok _ _ _ _ E8) as (_ & L8 & _). pose proof (arr_op_ok _ _ _ _ E9) as (_ & L9 & _).
  do 2 eexists. unfold single_panel_mass.
  eapply mbind_eval; [apply mlift_eval, E1|]. eapply mbind_eval; [apply mlift_eval, E2|].
  eapply mbind_eval; [apply mlift_eval, E3|]. eapply mbind_eval; [apply mlift_eval, E4|].
  eapply mbind_eval; [apply mlift_eval, fill_total; congruence|].
  eapply mbind_eval; [apply mlift_eval, plot_total; congruence|].
  eapply mbind_eval; [exact E7|]. cbn beta iota.
  eapply mbind_eval; [apply mlift_eval, E8|]. eapply mbind_eval; [apply mlift_eval, E9|].
  eapply mbind_eval; [apply mlift_eval, plot_total; congruence|].
  eapply mbind_eval; [apply mlift_eval, plot_total; congruence|].
  eapply mbind_eval; [apply mlift_eval, plot_total; congruence|]. reflexivity.
Qed.

Lemma in_sample e (data : list (Bin R)) b : In b (filter (fun b => in_epoch e (bin_t_obs b)) data) <-> In b data /\ shown e (bin_t_obs b).
Proof. rewrite filter_In, epoch_shown. reflexivity. Qed.

(** ** One residual curve *)

Definition distance (t m : R) (b : Bin R) : R := Rabs (bin_t_obs b - t) + Rabs (bin_lgm_obs b - m).

Lemma residual_inv F G g data (p : rec R) t m a tr : residual_curve F G g data p t m = (Ok a, tr) ->
  exists b mean std fp tri y, In b data /\ (forall b', In b' data -> distance t m b <= distance t m b') /\
    predict_mah_moments_singlebin F G g p (bin_tarr b) (bin_lgm_obs b) (bin_t_obs b) (Seed 0) (log10 13.79) =
      (Ok (mean, std, fp), tri) /\
    is_difference mean (bin_mean b) y /\ a = Curve "-" (bin_tarr b) y.
Proof.
  intros H. unfold residual_curve in H.
  apply mbind_ok in H. destruct H as (ih & t1 & t2 & E1 & H & ->). apply mlift_ok in E1. destruct E1 as [E1 ->].
  apply mbind_ok in H. destruct H as (b & t3 & t4 & E2 & H & ->). apply mlift_ok in E2. destruct E2 as [E2 ->].
  apply mbind_ok in H. destruct H as ([[mean std] fp] & t13 & t14 & E7 & H & ->).
  apply mbind_ok in H. destruct H as (y & t15 & t16 & E8 & H & ->). apply mlift_ok in E8. destruct E8 as [E8 ->].
  apply mlift_ok in H. destruct H as [H ->].
  destruct (pick_ok (distance t m) data ih b E1 E2) as [Hin Hmin].
  apply arr_op_ok in E8. apply plot_ok in H. rewrite lgt0_eq in E7.
  exists b, mean, std, fp, t13, y. repeat (split; [assumption|]). exact H.
Qed.

Lemma residual_total G g data (p : rec R) t m : legal_pop p -> shapely G -> data <> [] ->
  (forall b, In b data -> tidy b) -> exists a tr, residual_curve TN G g data p t m = (Ok a, tr).
Proof.
  intros L HG Hs HT. destruct (pick_total (distance t m) data Hs) as (i & b & E1 & E2 & Hin & _).
  destruct (HT b Hin) as [T1 T2].
  destruct (predict_total G g p (bin_tarr b) (bin_lgm_obs b) (bin_t_obs b) (Seed 0) LGT0_SMDPL L HG) as (mean & std & fp & tr & E7).
  pose proof (predict_inv _ _ _ _ _ _ _ _ _ _ _ _ L E7) as (_ & r & _ & _ & Lm & Ls & _).
  destruct (arr_op_total Rminus mean (bin_mean b)) as (y & E8); [congruence|].
  pose proof (arr_op_ok _ _ _ _ E8) as (_ & L8 & _).
  do 2 eexists. unfold residual_curve.
  eapply mbind_eval; [apply mlift_eval, E1|]. eapply mbind_eval; [apply mlift_eval, E2|].
  eapply mbind_eval; [exact E7|]. cbn beta iota.
  eapply mbind_eval; [apply mlift_eval, E8|].
  apply mlift_eval, plot_total; congruence.
Qed.

Lemma difference_zero x y z : is_difference x y z -> (forall v, In v z -> v = 0) <-> x = y.
Proof.
  intros (H1 & H2 & H). split.
  - intros Z. apply nth_ext with 0 0; [congruence|]. intros i Hi.
    assert (nth i z 0 = 0) as E by (apply Z, nth_In; lia). rewrite H in E by exact Hi. lra.
  - intros -> v Hv. destruct (In_nth z v 0 Hv) as (i & Hi & <-). rewrite H by lia. lra.
Qed.

Lemma residual_masses_nth g j m : nth_error (residual_masses g) j = Some m <-> ((j < 15)%nat /\ m = residual_mass g j).
Proof.
  unfold residual_masses, N_MASS. set (hi := match g with Cen => 145/10 | Sat => 135/10 end).
  assert (Eh : hi = top_mass g) by (unfold hi; destruct g; cbn; lra).
  assert (Q : forall j, (j < 15)%nat -> nth j (linspace 11 hi 15) 0 = residual_mass g j).
  { intros k Hk. rewrite linspace_nth by exact Hk. unfold residual_mass. rewrite Eh. replace (INR (15 - 1)) with 14 by (cbn; lra).
    unfold Rdiv. ring. }
  split.
  - intros E. assert (Hj : (j < 15)%nat) by (rewrite <- (linspace_length 11 hi 15); apply nth_error_Some; congruence).
    split; [exact Hj|]. rewrite <- (Q j Hj). symmetry. now apply nth_error_nth.
  - intros [Hj ->]. rewrite <- (Q j Hj). apply nth_error_nth'. now rewrite linspace_length.
Qed.

(** ** Whole figures *)

Lemma single_panel_inv F G g e data (p : rec R) drn fig tr :
  plot_singlepanel_mahs F G g e data p drn = (Ok fig, tr) ->
  exists title groups, fig_panels fig = [(title, concat groups)] /\ length groups = 3%nat /\
  forall i m, nth_error (panel_masses g e) i = Some m ->
  exists gr b, nth_error groups i = Some gr /\ In b data /\ shown e (bin_t_obs b) /\
    (forall b', In b' data -> shown e (bin_t_obs b') -> Rabs (bin_lgm_obs b - m) <= Rabs (bin_lgm_obs b' - m)) /\
    mass_group F G g p b gr.
Proof.
  intros H. unfold plot_singlepanel_mahs in H. cbv zeta in H.
  apply mbind_ok in H. destruct H as (groups & t1 & t2 & E & H & ->). apply mret_ok in H. destruct H as [-> ->].
  apply mseq_map_inv in E. destruct E as (L & trs & _ & _ & E). rewrite masses_eq in E, L.
  eexists _, groups. split; [reflexivity|]. split; [rewrite L; now destruct g, e|].
  intros i m Hm. destruct (E i m Hm) as (gr & t & N & _ & Eg). apply single_mass_inv in Eg. destruct Eg as (b & Hb & Hmin & Hg).
  apply in_sample in Hb. destruct Hb as [Hb Hs]. exists gr, b. split; [exact N|]. split; [exact Hb|]. split; [exact Hs|]. split; [|exact Hg].
  intros b' Hb' Hs'. apply Hmin. now apply in_sample.
Qed.

Lemma single_panel_total G g e data (p : rec R) drn : legal_pop p -> shapely G ->
  (forall b, In b data -> tidy b) -> (exists b, In b data /\ shown e (bin_t_obs b)) ->
  exists fig tr, plot_singlepanel_mahs TN G g e data p drn = (Ok fig, tr).
Proof.
  intros L HG HT (b & Hb & Hs). unfold plot_singlepanel_mahs. cbv zeta.
  destruct (mseq_map_total (single_panel_mass TN G g (filter (fun b => in_epoch e (bin_t_obs b)) data) p) (single_panel_masses g e)) as (gs & t & E).
  - intros m _. apply single_mass_total; [exact L|exact HG| |].
    + intros N. assert (Hi : In b (filter (fun b => in_epoch e (bin_t_obs b)) data)) by now apply in_sample. rewrite N in Hi. destruct Hi.
    + intros b' Hb'. apply in_sample in Hb'. apply HT, Hb'.
  - do 2 eexists. eapply mbind_eval; [exact E|]. reflexivity.
Qed.

Lemma single_panel_empty F G g e data (p : rec R) drn : (forall b, In b data -> ~ shown e (bin_t_obs b)) ->
  plot_singlepanel_mahs F G g e data p drn = (Err ValueError, []).
Proof.
  intros H. unfold plot_singlepanel_mahs. cbv zeta.
  assert (E : filter (fun b => in_epoch e (bin_t_obs b)) data = []).
  { destruct (filter _ data) as [|b l] eqn:E; [reflexivity|]. exfalso.
    assert (Hb : In b (filter (fun b => in_epoch e (bin_t_obs b)) data)) by (rewrite E; now left).
    apply in_sample in Hb. destruct Hb as [Hb Hs]. exact (H b Hb Hs). }
  rewrite E. destruct g, e; reflexivity.
Qed.

Lemma residual_figure_inv F G g data (p : rec R) drn fig tr :
  plot_mah_4panel_residuals F G g data p drn = (Ok fig, tr) ->
  map fst (fig_panels fig) = map snd (panels g) /\
  forall i t title, nth_error (panels g) i = Some (t, title) ->
  exists curves, nth_error (fig_panels fig) i = Some (title, curves) /\ length curves = 15%nat /\
  forall j, (j < 15)%nat -> exists a tra, nth_error curves j = Some a /\ residual_curve F G g data p t (residual_mass g j) = (Ok a, tra).
Proof.
  intros H. unfold plot_mah_4panel_residuals in H.
  apply mbind_ok in H. destruct H as (ps & t1 & t2 & E & H & ->). apply mret_ok in H. destruct H as [-> ->]. cbn [fig_panels].
  apply mseq_map_inv in E. destruct E as (L & trs & _ & _ & E).
  assert (Q : forall i t title, nth_error (panels g) i = Some (t, title) ->
    exists curves, nth_error ps i = Some (title, curves) /\ length curves = 15%nat /\
    forall j, (j < 15)%nat -> exists a tra, nth_error curves j = Some a /\ residual_curve F G g data p t (residual_mass g j) = (Ok a, tra)).
  { intros i t title Hi. unfold panels in Hi. rewrite nth_error_map in Hi. fold residual_times in Hi.
    destruct (nth_error residual_times i) as [tt|] eqn:Ht; [|discriminate].
    destruct (E i tt Ht) as (r & t' & Nr & _ & Er).
    apply mbind_ok in Er. destruct Er as (curves & t3 & t4 & Ec & Er & ->). apply mret_ok in Er. destruct Er as [-> ->].
    apply mseq_map_inv in Ec. destruct Ec as (Lc & trc & _ & _ & Ec).
    exists curves. cbn [option_map] in Hi. injection Hi as <- <-. split; [rewrite Nr; destruct g; reflexivity|].
    split; [rewrite Lc; unfold residual_masses; apply linspace_length|].
    intros j Hj. destruct (Ec j (residual_mass g j)) as (a & tra & Na & _ & Ea); [now apply residual_masses_nth|]. eauto. }
  split; [|exact Q].
  assert (Lp : length ps = 4%nat) by exact L.
  destruct ps as [|[a1 c1] [|[a2 c2] [|[a3 c3] [|[a4 c4] [|]]]]]; try discriminate Lp.
  destruct (nth_error (panels g) 0) as [[u1 s1]|] eqn:N1; [|destruct g; discriminate].
  destruct (nth_error (panels g) 1) as [[u2 s2]|] eqn:N2; [|destruct g; discriminate].
  destruct (nth_error (panels g) 2) as [[u3 s3]|] eqn:N3; [|destruct g; discriminate].
  destruct (nth_error (panels g) 3) as [[u4 s4]|] eqn:N4; [|destruct g; discriminate].
  destruct (Q _ _ _ N1) as (? & M1 & _). destruct (Q _ _ _ N2) as (? & M2 & _).
  destruct (Q _ _ _ N3) as (? & M3 & _). destruct (Q _ _ _ N4) as (? & M4 & _).
  cbn in M1, M2, M3, M4. injection M1 as -> _. injection M2 as -> _. injection M3 as -> _. injection M4 as -> _.
  destruct g; cbn in N1, N2, N3, N4 |- *; congruence.
Qed.

Lemma residual_figure_total G g data (p : rec R) drn : legal_pop p -> shapely G -> data <> [] ->
  (forall b, In b data -> tidy b) -> exists fig tr, plot_mah_4panel_residuals TN G g data p drn = (Ok fig, tr).
Proof.
  intros L HG Hd HT. unfold plot_mah_4panel_residuals.
  destruct (mseq_map_total (fun tt : R * string =>
      mbind (mseq (map (residual_curve TN G g data p (fst tt)) (residual_masses g))) (fun curves =>
      mret ((match g with Cen => "host halos: t_obs = " | Sat => "subhalos: t_obs = " end) ++ snd tt, curves)%string)) residual_times) as (ps & t & E).
  - intros tt _. destruct (mseq_map_total (residual_curve TN G g data p (fst tt)) (residual_masses g)) as (cs & tc & Ec).
    + intros m _. now apply residual_total.
    + do 2 eexists. eapply mbind_eval; [exact Ec|]. reflexivity.
  - do 2 eexists. eapply mbind_eval; [exact E|]. reflexivity.
Qed.

(** On a grid the nearest row has the nearest time and the nearest mass. *)
Lemma grid_nearest data t m b : grid data -> In b data -> (forall b', In b' data -> distance t m b <= distance t m b') ->
  forall b', In b' data -> Rabs (bin_t_obs b - t) <= Rabs (bin_t_obs b' - t) /\ Rabs (bin_lgm_obs b - m) <= Rabs (bin_lgm_obs b' - m).
Proof.
  intros HG Hb Hmin b' Hb'. unfold distance in Hmin. split.
  - destruct (HG b' b Hb' Hb) as (c & Hc & E1 & E2). specialize (Hmin c Hc). rewrite E1, E2 in Hmin. lra.
  - destruct (HG b b' Hb Hb') as (c & Hc & E1 & E2). specialize (Hmin c Hc). rewrite E1, E2 in Hmin. lra.
Qed.

(** ** File names *)

Lemma single_panel_file F G g e data (p : rec R) drn fig tr : plot_singlepanel_mahs F G g e data p drn = (Ok fig, tr) ->
  fig_file fig = (drn ++ "/" ++ "diffmahpop_mu_var_single_panel_" ++ (match g with Cen => "cens" | Sat => "sats" end) ++
                 (match e with Z0 => "_z0.png" | Z2 => "_z2.png" end))%string.
Proof.
  intros H. unfold plot_singlepanel_mahs in H. cbv zeta in H.
  apply mbind_ok in H. destruct H as (groups & t1 & t2 & E & H & ->). apply mret_ok in H. now destruct H as [-> ->].
Qed.

Lemma residual_file F G g data (p : rec R) drn fig tr : plot_mah_4panel_residuals F G g data p drn = (Ok fig, tr) ->
  fig_file fig = (drn ++ "/" ++ "diffmahpop_mu_var_4panel_residuals_" ++ (match g with Cen => "cens.png" | Sat => "sats.png" end))%string.
Proof.
  intros H. unfold plot_mah_4panel_residuals in H.
  apply mbind_ok in H. destruct H as (ps & t1 & t2 & E & H & ->). apply mret_ok in H. now destruct H as [-> ->].
Qed.

Lemma string_app_cancel (a b c : string) : (a ++ b = a ++ c)%string -> b = c.
Proof. induction a as [|x a IH]; cbn; [auto|]. intros H. injection H. exact IH. Qed.

Lemma files_distinct F G data (p : rec R) drn :
  let single g e := plot_singlepanel_mahs F G g e data p drn in
  let residuals g := plot_mah_4panel_residuals F G g data p drn in
  (forall g e g' e' f f' tr tr', single g e = (Ok f, tr) -> single g' e' = (Ok f', tr') ->
     fig_file f = fig_file f' -> g = g' /\ e = e') /\
  (forall g g' f f' tr tr', residuals g = (Ok f, tr) -> residuals g' = (Ok f', tr') -> fig_file f = fig_file f' -> g = g') /\
  (forall g e g' f f' tr tr', single g e = (Ok f, tr) -> residuals g' = (Ok f', tr') -> fig_file f <> fig_file f').
Proof.
  cbv zeta. split; [|split].
  - intros g e g' e' f f' tr tr' H H'. apply single_panel_file in H, H'. rewrite H, H'. intros Q. apply string_app_cancel in Q.
    destruct g, e, g', e'; cbn in Q; first [discriminate|auto].
  - intros g g' f f' tr tr' H H'. apply residual_file in H, H'. rewrite H, H'. intros Q. apply string_app_cancel in Q.
    destruct g, g'; cbn in Q; first [discriminate|auto].
  - intros g e g' f f' tr tr' H H'. apply single_panel_file in H. apply residual_file in H'. rewrite H, H'. intros Q. apply string_app_cancel in Q.
    destruct g, e, g'; cbn in Q; discriminate.
Qed.
