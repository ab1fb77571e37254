(** Properties of the tabulation of population targets: bins and samples (C71),
    collation (C72), tables and their loader (C73). *)

From Coq Require Import Reals String Lra Lia List ZArith Bool Ascii Sorted.
From Verif Require Import Model_Num Model_Base Model_Kernels Model_Fitter Model_Outline Model_Utils Model_Data
  Model_MPI Model_Tab RealAux Spec_Outline Spec_Tab Proofs_Outline Proofs_Outline2 Proofs_MPI Proofs_MPI3 Proofs_MPI8
  Proofs_MPI9 Proofs_Data3 Proofs_Data5 Proofs_Tab Proofs_Tab2 Proofs_Tab3 Proofs_Tab4.
Import ListNotations.
Local Open Scope list_scope.
Local Open Scope R_scope.

(** ** C71: bins and samples *)

(** The halos dropped from a subvolume are those whose fit failed (loss -1); the
    parameters, the peak times and the host identifiers kept stay aligned. *)
Theorem C71_failed_fits_dropped params loss hist :
  (forall c, In c (fields params) -> List.length c = List.length loss) ->
  List.length hist = List.length loss ->
  exists idx p,
    kept (fun i => nth i loss NaN <> Fin (-1)) (List.length loss) idx /\
    load_diffmah_subvolume params loss hist =
      Ok (p, pick idx NaN (t_peak params), pick idx [] hist) /\
    fields p = map (pick idx NaN) (fields params).
Proof.
  intros H1 H2. destruct (good_subvol params loss hist H1 H2) as (p & Hp & Hf).
  exists (trues (map good_fit loss)), p. split; [|split; [exact Hp|exact Hf]].
  rewrite <- (map_length good_fit loss). apply trues_kept. intros i Hi. rewrite map_length in Hi.
  rewrite (nth_indep _ false (good_fit NaN)) by (rewrite map_length; exact Hi). rewrite map_nth.
  destruct (nth i loss NaN) as [r| | |]; cbn [good_fit]; try (split; [discriminate|reflexivity]).
  unfold Reqb. destruct (Req_EM_T r (-1)) as [->|N]; cbn [negb]; split; try discriminate; try congruence; intros H; exfalso; apply H; reflexivity.
Qed.
Print Assumptions C71_failed_fits_dropped.
Example C71_failed_fits_hyps : exists (params : DiffmahParams (list xr)) (loss : list xr) (hist : list (list Z)),
  (forall c, In c (fields params) -> List.length c = List.length loss) /\ List.length hist = List.length loss /\
  nth 0 loss NaN = Fin (-1) /\ nth 1 loss NaN = Fin (1 / 100).
Proof.
  exists (mkParams [Fin 12; Fin 13] [Fin 0; Fin 0] [Fin 2; Fin 2] [Fin 1; Fin 1] [Fin 9; Fin 8]), [Fin (-1); Fin (1 / 100)], [[-1]; [5]]%Z.
  split; [|cbn; auto]. intros c Hc. cbn in Hc. repeat (destruct Hc as [<-|Hc]; [reflexivity|]). contradiction.
Qed.

(** The sample of a bin consists of exactly the halos whose final log mass is
    within 0.15 of the tabulated mass, in order, with aligned columns. *)
Theorem C71_bin_selection masses lgm p tp upid :
  (0 < width masses)%nat ->
  (forall c, In c (fields p) -> List.length c = List.length (rows2 masses)) ->
  List.length tp = List.length (rows2 masses) -> List.length upid = List.length (rows2 masses) ->
  exists idx ps,
    kept (fun i => exists m, nth (width masses - 1) (nth i (rows2 masses) []) NaN = Fin m /\ in_bin m lgm)
      (List.length (rows2 masses)) idx /\
    get_target_mah_params masses (Fin lgm) p tp upid BIN_WIDTH = Ok (ps, pick idx NaN tp, pick idx 0%Z upid) /\
    fields ps = map (pick idx NaN) (fields p).
Proof.
  intros Hw Hc Ht Hu. unfold get_target_mah_params. change (-1)%Z with (- Z.of_nat 1)%Z. rewrite (column_z_neg masses 1) by lia. cbn [bind].
  set (last := column2 masses (width masses - 1)).
  assert (Hlen : List.length last = List.length (rows2 masses)) by (unfold last, column2; apply map_length).
  set (msk := map (fun x => xltb (xabs (xsub x (Fin lgm))) BIN_WIDTH) last).
  assert (Hm : List.length msk = List.length (rows2 masses)) by (unfold msk; rewrite map_length; exact Hlen).
  destruct (compress_fields msk p) as (ps & -> & Hf); [intros c Hin; rewrite Hm; auto|]. cbn [bind].
  rewrite (compress_trues NaN) by congruence. cbn [bind]. rewrite (compress_trues 0%Z) by congruence. cbn [bind].
  exists (trues msk), ps. split; [|split; [reflexivity|exact Hf]]. rewrite <- Hm. apply trues_kept. intros i Hi. rewrite Hm in Hi.
  unfold msk. rewrite (nth_indep _ false (xltb (xabs (xsub NaN (Fin lgm))) BIN_WIDTH)) by (rewrite map_length; lia).
  rewrite (map_nth (fun x => xltb (xabs (xsub x (Fin lgm))) BIN_WIDTH)).
  unfold last, column2.
  rewrite (nth_indep _ NaN (nth (width masses - 1) [] NaN)) by (rewrite map_length; lia).
  rewrite (map_nth (fun r => nth (width masses - 1) r NaN)).
  destruct (nth (width masses - 1) (nth i (rows2 masses) []) NaN) as [m| | |]; unfold BIN_WIDTH.
  - cbn. unfold Rltb, in_bin, Rminus. destruct (Rlt_dec (Rabs (m + - lgm)) (15 / 100)) as [H|H].
    + split; [|reflexivity]. intros _. exists m. auto.
    + split; [discriminate|]. intros (m' & E & H'). injection E as ->. contradiction.
  - cbn. split; [discriminate|]. intros (m' & E & _). discriminate.
  - cbn. split; [discriminate|]. intros (m' & E & _). discriminate.
  - cbn. split; [discriminate|]. intros (m' & E & _). discriminate.
Qed.
Print Assumptions C71_bin_selection.
Example C71_bin_selection_hyps : exists masses (p : DiffmahParams (list xr)) (tp : list xr) (upid : list Z),
  (0 < width masses)%nat /\ (forall c, In c (fields p) -> List.length c = List.length (rows2 masses)) /\
  List.length tp = List.length (rows2 masses) /\ List.length upid = List.length (rows2 masses) /\
  in_bin (121 / 10) 12 /\ ~ in_bin (122 / 10) 12.
Proof.
  exists (mkArr2 2 [[Fin 11; Fin (121 / 10)]; [Fin 11; Fin (122 / 10)]]),
    (mkParams [Fin 12; Fin 13] [Fin 0; Fin 0] [Fin 2; Fin 2] [Fin 1; Fin 1] [Fin 9; Fin 8]), [Fin 9; Fin 8], [-1; 5]%Z.
  cbn [width rows2 List.length]. split; [lia|]. split.
  { intros c Hc. cbn in Hc. repeat (destruct Hc as [<-|Hc]; [reflexivity|]). contradiction. }
  split; [reflexivity|]. split; [reflexivity|]. unfold in_bin. split; [apply Rabs_def1; lra|].
  intros H. apply Rabs_def2 in H. lra.
Qed.

(** The table written for one sample: one row per selected halo, at most the
    first 34; its five parameters, then its peak time. *)
Theorem C71_sample_rows msk p tp :
  (forall c, In c (fields p ++ [tp]) -> List.length c = List.length msk) ->
  exists idx, kept (fun i => nth i msk false = true) (List.length msk) idx /\
    sample_table msk p tp =
      Ok (map (fun i => map (fun c => nth i c NaN) (fields p ++ [tp])) (firstn 34 idx)).
Proof.
  intros H. exists (trues msk). split; [|now apply sample_table_pick]. apply trues_kept. intros i _. reflexivity.
Qed.
Print Assumptions C71_sample_rows.
Example C71_sample_rows_example :
  sample_table [true; false] (mkParams [Fin 12; Fin 13] [Fin 0; Fin 0] [Fin 2; Fin 2] [Fin 1; Fin 1] [Fin 9; Fin 8]) [Fin 9; Fin 8] =
  Ok [[Fin 12; Fin 0; Fin 2; Fin 1; Fin 9; Fin 9]].
Proof. reflexivity. Qed.

(** The grid: equally spaced times from 2 to t0, and at each time equally spaced
    masses from 11 to the largest mass of that time. *)
Theorem C71_grid t0 t n_t n_m :
  get_t_obs_table (Fin t0) (Z.of_nat n_t) = Ok (map Fin (points 2 t0 n_t)) /\
  lgmarr_table_from_t_obs_kern (Fin t) (Z.of_nat n_m) = Ok (map Fin (points 11 (15 + 75 / 1000 * (t - 15)) n_m)).
Proof. split; [apply times_points|apply masses_points]. Qed.
Print Assumptions C71_grid.
Example C71_grid_example : points 2 14 3 = [2; 8; 14].
Proof. unfold points. cbn [seq map INR]. repeat f_equal; field. Qed.

Lemma twelve t j : 11 + INR j * ((top_mass t - 11) / (INR 12 - 1)) = 11 + INR j * ((top_mass t - 11) / 11).
Proof. replace (INR 12 - 1) with 11 by (cbn [INR]; lra). reflexivity. Qed.
Lemma late_spacing t : 17 / 3 <= t -> 3 / 10 <= (top_mass t - 11) / 11.
Proof. unfold top_mass. lra. Qed.
Lemma early_spacing t : 2 <= t < 17 / 3 -> 0 < (top_mass t - 11) / 11 < 3 / 10.
Proof. unfold top_mass. lra. Qed.

(** With the default twelve masses, from 17/3 Gyr on no halo is in two bins. *)
Theorem C71_late_bins_disjoint t m c1 c2 : 17 / 3 <= t ->
  In c1 (bin_masses t 12) -> In c2 (bin_masses t 12) -> in_bin m c1 -> in_bin m c2 -> c1 = c2.
Proof.
  intros Ht H1 H2. apply points_In in H1, H2. destruct H1 as (j & _ & ->). destruct H2 as (k & _ & ->).
  rewrite !twelve. intros B1 B2. f_equal. f_equal. f_equal.
  apply (spaced_disjoint 11 ((top_mass t - 11) / 11) m j k); auto using late_spacing.
Qed.
Print Assumptions C71_late_bins_disjoint.
(** Before 17/3 Gyr every mass from the lowest bin to the highest is in a bin. *)
Theorem C71_early_bins_cover t m : 2 <= t < 17 / 3 -> 11 - 15 / 100 < m < top_mass t + 15 / 100 ->
  exists c, In c (bin_masses t 12) /\ in_bin m c.
Proof.
  intros Ht Hm. destruct (spaced_cover 11 ((top_mass t - 11) / 11) m 11) as (j & Hj & Hb).
  - now apply early_spacing.
  - lra.
  - replace (INR 11) with 11 by (cbn [INR]; lra). lra.
  - exists (11 + INR j * ((top_mass t - 11) / (INR 12 - 1))). split; [apply points_member; lia|]. now rewrite twelve.
Qed.
Print Assumptions C71_early_bins_cover.
(** But at no time are the bins a partition: from 17/3 Gyr on some halo between
    the lowest and the highest mass is in no bin, before that some halo is in two. *)
Theorem C71_late_bins_cover_refuted : forall t, 17 / 3 <= t ->
  exists m, 11 < m < top_mass t /\ forall c, In c (bin_masses t 12) -> ~ in_bin m c.
Proof.
  intros t Ht. exists (11 + (top_mass t - 11) / 11 / 2). pose proof (late_spacing t Ht). split; [lra|].
  intros c Hc. apply points_In in Hc. destruct Hc as (j & _ & ->). rewrite twelve. now apply spaced_gap.
Qed.
Print Assumptions C71_late_bins_cover_refuted.
Theorem C71_early_bins_disjoint_refuted : forall t, 2 <= t < 17 / 3 ->
  exists m c1 c2, In c1 (bin_masses t 12) /\ In c2 (bin_masses t 12) /\ c1 < c2 /\ in_bin m c1 /\ in_bin m c2.
Proof.
  intros t Ht. pose proof (early_spacing t Ht) as Hs. destruct (spaced_double 11 _ Hs) as [B0 B1].
  eexists. exists (11 + INR 0 * ((top_mass t - 11) / (INR 12 - 1))), (11 + INR 1 * ((top_mass t - 11) / (INR 12 - 1))).
  split; [apply points_member; lia|]. split; [apply points_member; lia|]. rewrite !twelve.
  split; [cbn [INR]; lra|]. split; [exact B0|exact B1].
Qed.
Print Assumptions C71_early_bins_disjoint_refuted.
Example C71_bins_example : 17 / 3 <= 13 /\ 2 <= 3 < 17 / 3 /\ top_mass 15 = 15 /\ top_mass 3 = 141 / 10.
Proof. unfold top_mass. lra. Qed.

(** ** C72: collation *)

(** The names the samples and bins are written, collated and looked up under. *)
Theorem C72_names k m t kind :
  get_subvol_bnpat k (Fin m) (Fin t) kind = sample_file k (m, t) kind /\
  sample_name kind (Fin m) (Fin t) = bin_file (m, t) kind.
Proof.
  unfold get_subvol_bnpat, bin_suffix, sample_file, sample_name, bin_file, bin_name. cbn [fst snd]. split.
  - rewrite <- !app_assoc. reflexivity.
  - rewrite <- !app_assoc. reflexivity.
Qed.
Print Assumptions C72_names.

(** A collation of the samples of a grid succeeds: each bin file holds all rows of
    the bin, the samples are gone and nothing else changed.  At every moment
    either all samples are still there or all bin files are complete. *)
Theorem C72_collate drn t0 n_m n_t istart iend d :
  let out := out_dir drn (Z.of_nat n_m) (Z.of_nat n_t) istart iend in
  let bs := bins t0 n_m n_t in
  sample_dir d drn bs ->
  (forall p f, In (p, f) (dfiles d) -> fst p <> out) -> ~ In out (ddirs d) ->
  exists tr d',
    collate_subvolume_samples drn (Fin t0) (Z.of_nat n_m) (Z.of_nat n_t) istart iend d = (tr, d', Ok tt) /\
    collated d d' drn out bs /\
    (forall p, subvol_file drn p -> dfind d' p = None) /\
    (forall p, ~ subvol_file drn p -> fst p <> out -> dfind d' p = dfind d p) /\
    (forall bn f, dfind d' (out, bn) = Some f ->
       exists b kind, In b bs /\ In kind kinds /\ bn = bin_file b kind) /\
    (forall x, In x tr ->
       (forall p, fst p <> out -> dfind x p = dfind d p) \/ collated d x drn out bs).
Proof.
  intros out bs H1 H2 H3. pose proof (collate_run drn t0 n_m n_t istart iend d H1 H2 H3) as W.
  unfold wp in W. destruct (collate_subvolume_samples drn (Fin t0) (Z.of_nat n_m) (Z.of_nat n_t) istart iend d) as [[tr d'] r].
  destruct W as (HI & -> & Hcol & Hgone & Hkeep & Honly). exists tr, d'.
  split; [reflexivity|]. split; [exact Hcol|]. split; [exact Hgone|]. split; [exact Hkeep|]. split; [exact Honly|].
  intros x Hx. rewrite Forall_forall in HI. destruct (HI x Hx) as [H|[H _]]; [left|right]; exact H.
Qed.
Print Assumptions C72_collate.

(** Files that are neither samples nor in the output directory are the same at
    every moment. *)
Theorem C72_other_files_untouched drn t0 n_m n_t istart iend d tr d' r :
  let out := out_dir drn (Z.of_nat n_m) (Z.of_nat n_t) istart iend in
  sample_dir d drn (bins t0 n_m n_t) ->
  (forall p f, In (p, f) (dfiles d) -> fst p <> out) -> ~ In out (ddirs d) ->
  collate_subvolume_samples drn (Fin t0) (Z.of_nat n_m) (Z.of_nat n_t) istart iend d = (tr, d', r) ->
  forall x p, In x (d' :: tr) -> ~ subvol_file drn p -> fst p <> out -> dfind x p = dfind d p.
Proof.
  intros out H1 H2 H3 E x p Hx Hp Ho. pose proof (collate_run drn t0 n_m n_t istart iend d H1 H2 H3) as W.
  unfold wp in W. rewrite E in W. destruct W as (HI & _ & _ & _ & Hkeep & _). destruct Hx as [<-|Hx]; [now apply Hkeep|].
  rewrite Forall_forall in HI. destruct (HI x Hx) as [H|[_ H]]; [now apply H|now apply H].
Qed.
Print Assumptions C72_other_files_untouched.

(** No measured halo is lost at any moment: a row of a sample is in that sample,
    unchanged, or in the complete bin file. *)
Theorem C72_no_halo_lost drn t0 n_m n_t istart iend d tr d' r :
  let out := out_dir drn (Z.of_nat n_m) (Z.of_nat n_t) istart iend in
  sample_dir d drn (bins t0 n_m n_t) ->
  (forall p f, In (p, f) (dfiles d) -> fst p <> out) -> ~ In out (ddirs d) ->
  collate_subvolume_samples drn (Fin t0) (Z.of_nat n_m) (Z.of_nat n_t) istart iend d = (tr, d', r) ->
  forall k b kind rows row, In b (bins t0 n_m n_t) -> In kind kinds ->
    dfind d (drn, sample_file k b kind) = Some (Txt rows) -> In row rows ->
    forall x, In x (d' :: tr) ->
      dfind x (drn, sample_file k b kind) = Some (Txt rows) \/
      exists a, dfind x (out, bin_file b kind) = Some (Npy a) /\ In row (rows2 a).
Proof.
  intros out H1 H2 H3 E k b kind rows row Hb Hk Hf Hr x Hx.
  pose proof (collate_run drn t0 n_m n_t istart iend d H1 H2 H3) as W.
  unfold wp in W. rewrite E in W. destruct W as (HI & _ & Hcol & _).
  assert (X : (forall p, fst p <> out -> dfind x p = dfind d p) \/ collated d x drn out (bins t0 n_m n_t)).
  { destruct Hx as [<-|Hx]; [right; exact Hcol|]. rewrite Forall_forall in HI. destruct (HI x Hx) as [H|[H _]]; auto. }
  destruct X as [X|X].
  - left. rewrite X; [exact Hf|]. cbn [fst]. apply out_dir_neq.
  - right. now apply (row_collated drn t0 n_m n_t istart iend d x k b kind rows row).
Qed.
Print Assumptions C72_no_halo_lost.

(** Whatever the disk: a collation that raises leaves every file outside its
    output directory as it was, at every moment. *)
Theorem C72_failure_keeps_files drn t0 n_m n_t istart iend d tr d' e :
  collate_subvolume_samples drn t0 n_m n_t istart iend d = (tr, d', Err e) ->
  forall x p, In x (d' :: tr) -> fst p <> out_dir drn n_m n_t istart iend -> dfind x p = dfind d p.
Proof.
  intros E x p Hx Hp. apply (outside_dfind (get_output_drn drn n_m n_t istart iend)); [|exact Hp].
  exact (collate_failure_trace drn t0 n_m n_t istart iend d tr d' e E x Hx).
Qed.
Print Assumptions C72_failure_keeps_files.

(** An existing output directory is refused before anything is changed. *)
Theorem C72_existing_output_refused drn t0 n_m n_t istart iend d :
  In (out_dir drn n_m n_t istart iend) (ddirs d) -> (0 <= n_t)%Z ->
  collate_subvolume_samples drn t0 n_m n_t istart iend d = ([], d, Err OSError).
Proof.
  intros H Hn. unfold collate_subvolume_samples, get_t_obs_table, np_linspace.
  destruct (Z.ltb_spec n_t 0); [lia|].
  assert (X : existsb (eqb_str (get_output_drn drn n_m n_t istart iend)) (ddirs d) = true).
  { apply existsb_exists. exists (get_output_drn drn n_m n_t istart iend). split; [exact H|]. now apply eqb_str_eq. }
  destruct (Z.eqb n_t 1); unfold mbind, mlift, mlook; cbn [app]; rewrite X; reflexivity.
Qed.
Print Assumptions C72_existing_output_refused.

(** That only collated samples are removed is false: a collation of a directory
    holding only the fit table of subvolume 7 removes it and writes nothing,
    whatever the table holds and whatever the grid. *)
Theorem C72_only_collated_removed_refuted : exists name : str,
  forall drn c t0 n_m n_t istart iend,
  let d := mkDisk [((drn, name), c)] [] in
  exists tr d', collate_subvolume_samples drn (Fin t0) (Z.of_nat n_m) (Z.of_nat n_t) istart iend d = (tr, d', Ok tt) /\
    dfind d (drn, name) = Some c /\ forall p, dfind d' p = None.
Proof.
  exists (lit "subvol_7_diffmah_fits.h5"). intros drn c t0 n_m n_t istart iend d.
  destruct (stray_removed drn c t0 n_m n_t istart iend) as (tr & d' & E & H). exists tr, d'. split; [exact E|]. split; [|exact H].
  unfold dfind, d. cbn [dfiles find fst]. now rewrite eqb_path_refl.
Qed.
Print Assumptions C72_only_collated_removed_refuted.

(** A directory to collate: two subvolumes with a sample of the bin (11, 2), a
    grid of one bin. *)
Example C72_sample_dir_example :
  let drn := lit "/data" in let b := (11, 2) in
  let d := mkDisk [((drn, sample_file 3 b (lit "cens")), Txt [[Fin 11; Fin 0; Fin 2; Fin 1; Fin 9; Fin 9]]);
                   ((drn, sample_file 10 b (lit "cens")), Txt [[Fin 11; Fin 0; Fin 3; Fin 1; Fin 8; Fin 8]]);
                   ((drn, lit "notes.txt"), Other)] [] in
  sample_dir d drn (bins 13 1 1) /\ (forall p f, In (p, f) (dfiles d) -> fst p <> out_dir drn 1 1 0 576) /\
  ~ In (out_dir drn 1 1 0 576) (ddirs d).
Proof.
  intros drn b d. assert (Hb : In b (bins 13 1 1)).
  { unfold bins, bin_masses, points, b. cbn [seq map flat_map app In INR]. left. f_equal; lra. }
  split; [split|split].
  - cbn [d dfiles map fst]. constructor; [|constructor; [|constructor; [|constructor]]].
    + intros [H|[H|[]]]; injection H as H; discriminate.
    + intros [H|[]]; injection H as H; discriminate.
    + intros [].
  - intros p f [H|[H|[H|[]]]] [_ (rest & Hr)]; injection H as <- <-.
    + exists 3%Z, b, (lit "cens"), [[Fin 11; Fin 0; Fin 2; Fin 1; Fin 9; Fin 9]]. split; [lia|]. split; [exact Hb|].
      split; [now left|]. split; [reflexivity|]. split; [reflexivity|]. repeat constructor.
    + exists 10%Z, b, (lit "cens"), [[Fin 11; Fin 0; Fin 3; Fin 1; Fin 8; Fin 8]]. split; [lia|]. split; [exact Hb|].
      split; [now left|]. split; [reflexivity|]. split; [reflexivity|]. repeat constructor.
    + exfalso. discriminate Hr.
  - intros p f [H|[H|[H|[]]]]; injection H as <- _; discriminate.
  - intros [].
Qed.

(** ** C73: tables and their loader *)

(** The measurement script raises before it writes anything: it evaluates the
    histories with one argument too many. *)
Theorem C73_measurement_always_raises outdrn inp istart iend n_m n_t d : (istart < iend)%Z -> (1 <= n_t)%Z ->
  exists e, smdpl_diffmahpop_subvolume_loop outdrn inp istart iend n_m n_t d = ([], d, Err e).
Proof. intros. now apply loop_fail. Qed.
Print Assumptions C73_measurement_always_raises.
Theorem C73_measurement_type_error outdrn inp istart iend n_m n_t d params loss hist ts :
  (istart < iend)%Z -> (1 <= n_t)%Z ->
  in_subvol inp istart = Ok (params, loss, hist) -> in_times inp = Ok ts -> ts <> [] ->
  (forall c, In c (fields params) -> List.length c = List.length loss) -> List.length hist = List.length loss ->
  (forall r, In r hist -> List.length r = List.length ts) ->
  smdpl_diffmahpop_subvolume_loop outdrn inp istart iend n_m n_t d = ([], d, Err TypeError).
Proof. intros. now apply (loop_type_error outdrn inp istart iend n_m n_t d params loss hist ts). Qed.
Print Assumptions C73_measurement_type_error.
Example C73_measurement_hyps : exists inp (params : DiffmahParams (list xr)) (loss : list xr) hist ts,
  in_subvol inp 0 = Ok (params, loss, hist) /\ in_times inp = Ok ts /\ ts <> [] /\
  (forall c, In c (fields params) -> List.length c = List.length loss) /\ List.length hist = List.length loss /\
  (forall r, In r hist -> List.length r = List.length ts).
Proof.
  set (params := mkParams [Fin 12] [Fin 0] [Fin 2] [Fin 1] [Fin 9]).
  exists (mkInputs (fun _ => Ok (params, [Fin (1 / 100)], [[-1; -1]%Z])) (Ok [Fin 7; Fin 13])), params, [Fin (1 / 100)],
    [[-1; -1]%Z], [Fin 7; Fin 13].
  split; [reflexivity|]. split; [reflexivity|]. split; [discriminate|]. split.
  { intros c Hc. cbn in Hc. repeat (destruct Hc as [<-|Hc]; [reflexivity|]). contradiction. }
  split; [reflexivity|]. intros r [<-|[]]. reflexivity.
Qed.

(** A tabulation of means and variances that returns found no sample above the
    threshold, and its tables are empty. *)
Theorem C73_tables_empty pyfloat d drn nh_min n_t rescale cen sat :
  tabulate_target_means_vars pyfloat d drn nh_min n_t rescale = Ok (cen, sat) ->
  (tg_lgm_obs cen = [] /\ tg_lgm_obs sat = []) /\
  forall bn a, In bn (dglob drn [] (lit "cens.npy") d ++ dglob drn [] (lit "sats.npy") d) ->
    dfind d (drn, bn) = Some (Npy a) -> Forall (fun r => List.length r = 6%nat) (rows2 a) ->
    (Z.of_nat (List.length (rows2 a)) <= nh_min)%Z.
Proof.
  unfold tabulate_target_means_vars.
  destruct (name_numbers pyfloat (dglob drn [] (lit "cens.npy") d)) as [c|e] eqn:Nc; cbn [bind]; [|discriminate].
  destruct (name_numbers pyfloat (dglob drn [] (lit "sats.npy") d)) as [s|e] eqn:Ns; cbn [bind]; [|discriminate].
  destruct (tabulate_list d drn nh_min n_t rescale c) as [tc|e] eqn:Ec; cbn [bind]; [|discriminate].
  destruct (tabulate_list d drn nh_min n_t rescale s) as [ts|e] eqn:Es; cbn [bind]; [|discriminate].
  intros H. injection H as <- <-. apply tabulate_list_small in Ec, Es. destruct Ec as [-> Ec]. destruct Es as [-> Es].
  split; [split; reflexivity|]. intros bn a Hbn Hf H6.
  apply name_numbers_fst in Nc, Ns. rewrite <- Nc, <- Ns, <- map_app in Hbn. apply in_map_iff in Hbn.
  destruct Hbn as (f & <- & Hin).
  assert (X : exists a rows, np_load d (drn, fst (fst f)) = Ok a /\ reshape6 (concat (rows2 a)) = Ok rows /\
    (Z.of_nat (List.length rows) <= nh_min)%Z) by (apply in_app_iff in Hin; destruct Hin; auto).
  destruct X as (a' & rows' & E1 & E2 & E3). unfold np_load in E1. rewrite Hf in E1. injection E1 as <-.
  rewrite (reshape_rows (rows2 a) H6) in E2. injection E2 as <-. exact E3.
Qed.
Print Assumptions C73_tables_empty.

(** A written pair of tables is refused by the loader. *)
Theorem C73_written_tables_refused pyfloat drn drn2 d tr d' a b c e n choice :
  write_mean_variance_to_disk pyfloat drn2 (drn, lit "mean_var_cens.h5") (drn, lit "mean_var_sats.h5") d = (tr, d', Ok tt) ->
  load_diffmahpop_targets d' drn a b c e n choice = Err IndexError.
Proof.
  intros H. apply write_read in H. destruct H as [H1 H2]. apply load_no_targets; [exact H1|].
  exists no_targets. unfold load_table. now rewrite H2.
Qed.
Print Assumptions C73_written_tables_refused.
Example C73_written_example : exists pyfloat drn2 d tr d',
  write_mean_variance_to_disk pyfloat drn2 (lit "/out", lit "mean_var_cens.h5") (lit "/out", lit "mean_var_sats.h5") d = (tr, d', Ok tt).
Proof. exists (fun _ => Err ValueError), (lit "/data"), (mkDisk [] []). eexists. eexists. reflexivity. Qed.

(** The loader never returns a row: whenever it returns, both tables are empty and
    no row of the files met the cuts. *)
Theorem C73_loader_returns_no_row d drn a b c e n choice cen sat :
  load_diffmahpop_targets d drn a b c e n choice = Ok (cen, sat) ->
  cen = [] /\ sat = [] /\
  forall kind file lo hi, In (kind, file, lo, hi)
    [(lit "cens", lit "mean_var_cens.h5", a, c); (lit "sats", lit "mean_var_sats.h5", b, e)] ->
  exists t, dfind d (drn, file) = Some (Hdf t) /\
    forall i l to arr, nth_error (tg_lgm_obs t) i = Some l -> nth_error (tg_t_obs t) i = Some to ->
      dfind d (TASSO_DRN, sample_name kind l to) = Some (Npy arr) ->
      ~ (xltb lo to = true /\ xltb l hi = true /\ (n <= List.length (rows2 arr))%nat).
Proof.
  intros H. apply load_empty in H. destruct H as (-> & -> & tc & ts & nc & ns & Lc & Ls & Nc & Ns & Kc & Ks).
  split; [reflexivity|]. split; [reflexivity|].
  assert (LT : forall f t, load_table d drn f = Ok t -> dfind d (drn, f) = Some (Hdf t)).
  { intros f t. unfold load_table. destruct (dfind d (drn, f)) as [[| |t'|]|]; try discriminate.
    destruct (_ && _)%bool; [|discriminate]. intros E. injection E as ->. reflexivity. }
  intros kind file lo hi [E|[E|[]]]; injection E as <- <- <- <-.
  - exists tc. split; [now apply LT|]. intros i l to arr H1 H2 H3 (H4 & H5 & H6).
    exact (keep_rows_In d (lit "cens") tc nc a c n i l to arr Nc H1 H2 H3 H4 H5 H6 Kc).
  - exists ts. split; [now apply LT|]. intros i l to arr H1 H2 H3 (H4 & H5 & H6).
    exact (keep_rows_In d (lit "sats") ts ns b e n i l to arr Ns H1 H2 H3 H4 H5 H6 Ks).
Qed.
Print Assumptions C73_loader_returns_no_row.

(** A complete directory of targets: both tables with one row at mass 12 and
    time 5, and the sample file of each. *)
Definition one_row : targets :=
  mkTargets [Fin 12] [Fin 5] (D2 (mkArr2 1 [[Fin 12]])) (D2 (mkArr2 1 [[Fin 1]])) (D2 (mkArr2 1 [[Fin 0]])) (D2 (mkArr2 1 [[Fin 5]])).
Definition one_sample : arr2 := mkArr2 6 [[Fin 12; Fin 0; Fin 2; Fin 1; Fin 9; Fin 9]].
Definition complete (drn : str) : disk :=
  mkDisk [((drn, lit "mean_var_cens.h5"), Hdf one_row); ((drn, lit "mean_var_sats.h5"), Hdf one_row);
          ((drn, bin_file (12, 5) (lit "cens")), Npy one_sample); ((drn, bin_file (12, 5) (lit "sats")), Npy one_sample)] [drn].
Lemma complete_dfind drn p f : In (p, f) (dfiles (complete drn)) -> dfind (complete drn) p = Some f.
Proof.
  apply dfind_unique. cbn [complete dfiles map fst].
  assert (N : bin_file (12, 5) (lit "cens") <> bin_file (12, 5) (lit "sats")).
  { unfold bin_file, bin_name. rewrite <- !app_assoc. intros H. do 5 apply app_inv_head in H. discriminate. }
  assert (X : forall kind, bin_file (12, 5) kind <> lit "mean_var_cens.h5" /\ bin_file (12, 5) kind <> lit "mean_var_sats.h5").
  { intros kind. split; discriminate. }
  constructor; [|constructor; [|constructor; [|constructor; [|constructor]]]].
  - intros [H|[H|[H|[]]]]; apply (f_equal snd) in H; cbn [snd] in H; [discriminate|now apply X in H|now apply X in H].
  - intros [H|[H|[]]]; apply (f_equal snd) in H; cbn [snd] in H; now apply X in H.
  - intros [H|[]]. apply (f_equal snd) in H. cbn [snd] in H. now apply N.
  - intros [].
Qed.

Lemma complete_tables drn : load_diffmahpop_mu_var_targets (complete drn) drn = Ok (one_row, one_row).
Proof.
  unfold load_diffmahpop_mu_var_targets, load_table.
  rewrite (complete_dfind drn (drn, lit "mean_var_cens.h5") (Hdf one_row)) by (now left).
  rewrite (complete_dfind drn (drn, lit "mean_var_sats.h5") (Hdf one_row)) by (right; now left).
  reflexivity.
Qed.
Lemma complete_sample drn kind : In kind kinds -> np_load (complete drn) (drn, sample_name kind (Fin 12) (Fin 5)) = Ok one_sample.
Proof.
  intros H. unfold np_load. rewrite (proj2 (C72_names 0 12 5 kind)), (complete_dfind drn _ (Npy one_sample)); [reflexivity|].
  destruct H as [<-|[<-|[]]]; cbn [complete dfiles In]; auto.
Qed.

Lemma complete_counts kind : In kind kinds -> n_samples (complete TASSO_DRN) kind one_row = Ok [List.length (rows2 one_sample)].
Proof.
  intros Hk. unfold n_samples, one_row. cbn [tg_lgm_obs tg_t_obs combine map fst snd]. rewrite complete_sample by exact Hk.
  reflexivity.
Qed.
Example C73_loader_example : exists d drn a b c e n choice,
  load_diffmahpop_targets d drn a b c e n choice = Ok ([], []) /\ dfind d (drn, lit "mean_var_cens.h5") = Some (Hdf one_row).
Proof.
  exists (complete TASSO_DRN), TASSO_DRN, (Fin 6), (Fin 6), (Fin 15), (Fin 15), 1%nat, (fun _ _ => [0%nat]).
  split; [|apply complete_dfind; now left].
  unfold load_diffmahpop_targets. rewrite complete_tables. cbn [bind]. rewrite !complete_counts by (cbn; auto). cbn [bind].
  assert (K : keep_rows one_row [List.length (rows2 one_sample)] (Fin 6) (Fin 15) 1 = []).
  { unfold keep_rows. cbn. rewrite (proj2 (Rltb_false 6 5)) by lra. reflexivity. }
  rewrite K. reflexivity.
Qed.

(** That a complete directory is loaded is false: *)
Theorem C73_complete_directory_loaded_refuted : exists drn a b c e n choice,
  load_diffmahpop_targets (complete drn) drn a b c e n choice = Err TypeError.
Proof.
  exists TASSO_DRN, (Fin 2), (Fin 2), (Fin 15), (Fin 15), 1%nat, (fun _ _ => [0%nat]).
  unfold load_diffmahpop_targets. rewrite complete_tables. cbn [bind].
  rewrite !complete_counts by (cbn; auto). cbn [bind].
  assert (K : keep_rows one_row [List.length (rows2 one_sample)] (Fin 2) (Fin 15) 1 = [(Fin 12, Fin 5, 1%nat, 0%nat)]).
  { unfold keep_rows. cbn. rewrite (proj2 (Rltb_true 2 5)), (proj2 (Rltb_true 12 15)) by lra. reflexivity. }
  rewrite K. cbn [List.length seq combine map fst snd]. unfold draw_row. rewrite !complete_sample by (cbn; auto).
  reflexivity.
Qed.
Print Assumptions C73_complete_directory_loaded_refuted.
(** and the sample counts come from one fixed directory, so a complete directory
    elsewhere is refused for a missing file. *)
Theorem C73_counts_from_given_directory_refuted : exists drn a b c e n choice,
  load_diffmahpop_targets (complete drn) drn a b c e n choice = Err OSError.
Proof.
  exists (lit "/data"), (Fin 2), (Fin 2), (Fin 15), (Fin 15), 1%nat, (fun _ _ => [0%nat]).
  unfold load_diffmahpop_targets. rewrite complete_tables. cbn [bind].
  assert (X : dfind (complete (lit "/data")) (TASSO_DRN, sample_name (lit "cens") (Fin 12) (Fin 5)) = None).
  { apply dfind_None. intros f [H|[H|[H|[H|[]]]]]; apply (f_equal (fun e => fst (fst e))) in H; discriminate. }
  assert (S : n_samples (complete (lit "/data")) (lit "cens") one_row = Err OSError).
  { unfold n_samples, one_row. cbn [tg_lgm_obs tg_t_obs combine map fst snd]. unfold np_load. now rewrite X. }
  rewrite S. reflexivity.
Qed.
Print Assumptions C73_counts_from_given_directory_refuted.
