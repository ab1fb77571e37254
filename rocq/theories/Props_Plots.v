(** C78: what the diagnostic figures of the population model show.

    [TN] is the cumulative truncated normal distribution on the reals and [G] an
    arbitrary generator.  [g] selects plot_bestfit_cen_mahs.py or
    plot_bestfit_sat_mahs.py; [e] the z=0 or the z=2 figure. *)

From Coq Require Import Reals String List Bool Arith Lia Lra.
From Verif Require Import Model_Num RealAux Model_Base Model_Kernels Model_Utils Model_PopBase Model_PopData
  Model_PopParams Model_PopKernels Model_PopMC Model_Plots Spec_Pop Spec_PopMC Spec_Plots Spec_TruncNorm
  Proofs_PopTpeak Proofs_PopAll Proofs_PopMC Proofs_PopMC2 Proofs_PopLoss Proofs_Plots.
Import ListNotations.
Local Open Scope R_scope.
Local Open Scope list_scope.

(** ** Single panels *)

(** For each of the three masses the figure shows the table row of the right
    epoch whose mass is nearest: its band of one standard deviation and its
    mean, and the mean and one-sigma lines predicted for that row's own mass,
    time and time table. *)
Theorem C78_single_panel : forall F G g e data (p : rec R) drn fig tr,
  plot_singlepanel_mahs F G g e data p drn = (Ok fig, tr) ->
  exists title groups, fig_panels fig = [(title, concat groups)] /\ length groups = 3%nat /\
  forall i m, nth_error (panel_masses g e) i = Some m ->
  exists gr b, nth_error groups i = Some gr /\ In b data /\ shown e (bin_t_obs b) /\
    (forall b', In b' data -> shown e (bin_t_obs b') -> Rabs (bin_lgm_obs b - m) <= Rabs (bin_lgm_obs b' - m)) /\
    exists lo hi mean std fp plo phi tri,
      predict_mah_moments_singlebin F G g p (bin_tarr b) (bin_lgm_obs b) (bin_t_obs b) (Seed 0) (log10 13.79) =
        (Ok (mean, std, fp), tri) /\
      is_difference (bin_mean b) (bin_std b) lo /\ is_sum (bin_mean b) (bin_std b) hi /\
      is_difference mean std plo /\ is_sum mean std phi /\
      gr = [Band (bin_tarr b) lo hi; Curve "-" (bin_tarr b) (bin_mean b);
            Curve "--" (bin_tarr b) mean; Curve ":" (bin_tarr b) plo; Curve ":" (bin_tarr b) phi].
Proof. exact single_panel_inv. Qed.
Print Assumptions C78_single_panel.

(** It is drawn whenever the table has a row of that epoch, and otherwise the
    call fails before drawing any random number. *)
Theorem C78_single_panel_total : forall G g e data (p : rec R) drn, legal_pop p -> shapely G ->
  (forall b, In b data -> tidy b) -> (exists b, In b data /\ shown e (bin_t_obs b)) ->
  exists fig tr, plot_singlepanel_mahs TN G g e data p drn = (Ok fig, tr).
Proof. exact single_panel_total. Qed.
Print Assumptions C78_single_panel_total.

Theorem C78_no_such_epoch : forall F G g e data (p : rec R) drn,
  (forall b, In b data -> ~ shown e (bin_t_obs b)) ->
  plot_singlepanel_mahs F G g e data p drn = (Err ValueError, []).
Proof. exact single_panel_empty. Qed.
Print Assumptions C78_no_such_epoch.

(** ** Residuals *)

(** Four panels with fifteen curves each.  A curve is the predicted minus the
    tabulated mean of one row, the one nearest to the panel's time and the
    curve's mass in |time difference| + |mass difference|; it vanishes exactly
    when the prediction reproduces the row. *)
Theorem C78_residuals : forall F G g data (p : rec R) drn fig tr,
  plot_mah_4panel_residuals F G g data p drn = (Ok fig, tr) ->
  map fst (fig_panels fig) = map snd (panels g) /\
  forall i t title, nth_error (panels g) i = Some (t, title) ->
  exists curves, nth_error (fig_panels fig) i = Some (title, curves) /\ length curves = 15%nat /\
  forall j, (j < 15)%nat ->
  exists b mean std fp tri y, nth_error curves j = Some (Curve "-" (bin_tarr b) y) /\ In b data /\
    (forall b', In b' data -> Rabs (bin_t_obs b - t) + Rabs (bin_lgm_obs b - residual_mass g j) <=
                              Rabs (bin_t_obs b' - t) + Rabs (bin_lgm_obs b' - residual_mass g j)) /\
    predict_mah_moments_singlebin F G g p (bin_tarr b) (bin_lgm_obs b) (bin_t_obs b) (Seed 0) (log10 13.79) =
      (Ok (mean, std, fp), tri) /\
    is_difference mean (bin_mean b) y /\
    ((forall v, In v y -> v = 0) <-> mean = bin_mean b).
Proof.
  intros F G g data p drn fig tr H. apply residual_figure_inv in H. destruct H as [H1 H2]. split; [exact H1|].
  intros i t title Hi. destruct (H2 i t title Hi) as (curves & N & L & H). exists curves. split; [exact N|]. split; [exact L|].
  intros j Hj. destruct (H j Hj) as (a & tra & Na & Ea). apply residual_inv in Ea.
  destruct Ea as (b & mean & std & fp & tri & y & Hb & Hmin & Hp & Hd & ->).
  exists b, mean, std, fp, tri, y. split; [exact Na|]. split; [exact Hb|]. split; [exact Hmin|]. split; [exact Hp|].
  split; [exact Hd|]. exact (difference_zero _ _ _ Hd).
Qed.
Print Assumptions C78_residuals.

Theorem C78_residuals_total : forall G g data (p : rec R) drn, legal_pop p -> shapely G -> data <> [] ->
  (forall b, In b data -> tidy b) -> exists fig tr, plot_mah_4panel_residuals TN G g data p drn = (Ok fig, tr).
Proof. exact residual_figure_total. Qed.
Print Assumptions C78_residuals_total.

(** If the table is a grid of times and masses, the row of each curve has the
    time nearest to its panel and the mass nearest to its label. *)
Theorem C78_residuals_grid : forall F G g data (p : rec R) drn fig tr, grid data ->
  plot_mah_4panel_residuals F G g data p drn = (Ok fig, tr) ->
  forall i t title, nth_error (panels g) i = Some (t, title) ->
  exists curves, nth_error (fig_panels fig) i = Some (title, curves) /\
  forall j, (j < 15)%nat ->
  exists b y, nth_error curves j = Some (Curve "-" (bin_tarr b) y) /\ In b data /\
    forall b', In b' data -> Rabs (bin_t_obs b - t) <= Rabs (bin_t_obs b' - t) /\
                             Rabs (bin_lgm_obs b - residual_mass g j) <= Rabs (bin_lgm_obs b' - residual_mass g j).
Proof.
  intros F G g data p drn fig tr HG H i t title Hi. apply C78_residuals in H. destruct H as [_ H].
  destruct (H i t title Hi) as (curves & N & _ & Hc). exists curves. split; [exact N|].
  intros j Hj. destruct (Hc j Hj) as (b & mean & std & fp & tri & y & Na & Hb & Hmin & _).
  exists b, y. split; [exact Na|]. split; [exact Hb|]. exact (grid_nearest data t _ b HG Hb Hmin).
Qed.
Print Assumptions C78_residuals_grid.

(** Otherwise it need not: times in Gyr and masses in dex are added up, so a
    panel can show a row of another time although the table has rows of its
    own.  In this table of two rows the panel "t_obs = 4.0" contains a curve of
    the row observed at 7 Gyr. *)
Theorem C78_panel_time_refuted : forall G g (p : rec R) drn, legal_pop p -> shapely G ->
  exists data fig tr title curves,
    plot_mah_4panel_residuals TN G g data p drn = (Ok fig, tr) /\
    nth_error (panels g) 0 = Some (4, title) /\ nth_error (fig_panels fig) 0 = Some (title, curves) /\
    (exists b, In b data /\ bin_t_obs b = 4) /\
    exists xs ys, In (Curve "-" xs ys) curves /\ forall b, In b data -> bin_t_obs b = 4 -> bin_tarr b <> xs.
Proof.
  intros G g p drn L HG.
  set (b1 := mkBin [1] 10 4 [10] [1] [1] : Bin R). set (b2 := mkBin [2] (top_mass g) 7 [10] [1] [1] : Bin R).
  destruct (C78_residuals_total G g [b1; b2] p drn L HG) as (fig & tr & E); [discriminate| |].
  { intros b [<-|[<-|[]]]; split; reflexivity. }
  destruct (C78_residuals _ _ _ _ _ _ _ _ E) as [_ H].
  destruct (nth_error (panels g) 0) as [[t title]|] eqn:N; [|destruct g; discriminate].
  assert (t = 4) as -> by (destruct g; cbn in N; injection N as <- _; reflexivity).
  destruct (H 0%nat 4 title N) as (curves & Nc & Lc & Hc).
  exists [b1; b2], fig, tr, title, curves. split; [exact E|]. split; [reflexivity|]. split; [exact Nc|].
  split; [exists b1; split; [now left|reflexivity]|].
  destruct (Hc 14%nat ltac:(lia)) as (b & mean & std & fp & tri & y & Na & Hb & Hmin & _).
  assert (Em : residual_mass g 14 = top_mass g) by (unfold residual_mass; replace (INR 14) with 14 by (cbn; lra); lra).
  rewrite Em in Hmin.
  assert (Eb : b = b2).
  { destruct Hb as [<-|[<-|[]]]; [exfalso|reflexivity]. specialize (Hmin b2 (or_intror (or_introl eq_refl))). cbn in Hmin.
    replace (4 - 4) with 0 in Hmin by lra. replace (top_mass g - top_mass g) with 0 in Hmin by lra.
    replace (7 - 4) with 3 in Hmin by lra. rewrite Rabs_R0, (Rabs_pos_eq 3) in Hmin by lra.
    assert (Rabs (10 - top_mass g) = top_mass g - 10).
    { rewrite Rabs_minus_sym. apply Rabs_pos_eq. destruct g; cbn; lra. }
    destruct g; cbn in *; lra. }
  subst b. exists [2], y. split; [eapply nth_error_In; exact Na|].
  intros b [<-|[<-|[]]] Ht; cbn in *; [intros X; injection X; lra|lra].
Qed.
Print Assumptions C78_panel_time_refuted.

(** ** Files *)

(** The six figures of one directory go to six different files. *)
Theorem C78_files : forall F G data (p : rec R) drn,
  let single g e := plot_singlepanel_mahs F G g e data p drn in
  let residuals g := plot_mah_4panel_residuals F G g data p drn in
  (forall g e g' e' f f' tr tr', single g e = (Ok f, tr) -> single g' e' = (Ok f', tr') ->
     fig_file f = fig_file f' -> g = g' /\ e = e') /\
  (forall g g' f f' tr tr', residuals g = (Ok f, tr) -> residuals g' = (Ok f', tr') -> fig_file f = fig_file f' -> g = g') /\
  (forall g e g' f f' tr tr', single g e = (Ok f, tr) -> residuals g' = (Ok f', tr') -> fig_file f <> fig_file f').
Proof. exact files_distinct. Qed.
Print Assumptions C78_files.

(** ** A table that satisfies the hypotheses *)

Example C78_example : exists (data : list (Bin R)) (d : rec R) (G : rng R) fig tr fig' tr', grid data /\ legal_pop d /\
  plot_singlepanel_mahs TN G Cen Z0 data d "FIGS" = (Ok fig, tr) /\
  plot_mah_4panel_residuals TN G Cen data d "FIGS" = (Ok fig', tr') /\
  fst (plot_singlepanel_mahs TN G Cen Z2 data d "FIGS") = Err ValueError.
Proof.
  destruct default_legal as (d & _ & L).
  set (data := [mkBin [1; 5] 12 7 [10; 11] [1/10; 1/10] [1; 1]; mkBin [1; 5] 12 13.8 [10; 11] [1/10; 1/10] [1; 1]] : list (Bin R)).
  set (G := mkRng R (fun _ => 1/2) (fun _ n => repeat (1/2) n) (fun _ c => repeat (1/10) (fst c))).
  assert (HG : shapely G) by (split; intros; apply repeat_length).
  assert (HT : forall b, In b data -> tidy b) by (intros b [<-|[<-|[]]]; split; reflexivity).
  destruct (C78_single_panel_total G Cen Z0 data d "FIGS" L HG HT) as (fig & tr & E).
  { eexists. split; [right; left; reflexivity|]. cbn. lra. }
  destruct (C78_residuals_total G Cen data d "FIGS" L HG ltac:(discriminate) HT) as (fig' & tr' & E').
  exists data, d, G, fig, tr, fig', tr'. split.
  - intros b b' [<-|[<-|[]]] [<-|[<-|[]]]; 
      first [eexists; split; [left; reflexivity|split; reflexivity]|eexists; split; [right; left; reflexivity|split; reflexivity]].
  - split; [exact L|]. split; [exact E|]. split; [exact E'|]. rewrite C78_no_such_epoch; [reflexivity|].
    intros b [<-|[<-|[]]]; cbn; lra.
Qed.
