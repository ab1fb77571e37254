(** C76: reading simulations. *)

From Coq Require Import Reals String List ZArith Bool Arith Lia.
From Verif Require Import Model_Num Model_Base Model_Fitter Model_Outline Model_Utils Model_Data Model_MPI
  Model_SimLoad Spec_Data Spec_MPI Spec_SimLoad Proofs_Data2 Proofs_SimLoad Props_Outline Props_MPI.
Import ListNotations.
Local Open Scope list_scope.

(** ** Galacticus *)

(** The loader returns exactly when the four columns are in the file, and then
    rows [istart] to [iend - 1] of each; without [iend], to the end of the first. *)
Theorem C76_galacticus_rows : forall V (hdf : h5 V) (istart : nat) (iend : option nat) r,
  extract_galacticus_mah_tables hdf (Z.of_nat istart) (option_map Z.of_nat iend) = Ok r <->
  exists mass time isolated last, galacticus_file hdf mass time isolated last /\
    let e := match iend with Some e => e | None => List.length mass end in
    r = (rows_between istart e mass, rows_between istart e time,
         rows_between istart e isolated, rows_between istart e last).
Proof.
  intros V hdf a b r. split.
  - intros H. destruct (extract_only _ _ _ _ H) as (m & t & i & l & F). exists m, t, i, l. split; [exact F|].
    rewrite (extract_eval _ _ _ _ _ _ _ F) in H. cbv zeta in *. apply (f_equal (fun x => match x with Ok y => y | Err _ => r end)) in H.
    rewrite <- H. destruct b; cbn [option_map]; now rewrite !py_slice_nat.
  - intros (m & t & i & l & F & ->). rewrite (extract_eval _ _ _ _ _ _ _ F). cbv zeta.
    destruct b; cbn [option_map]; now rewrite !py_slice_nat.
Qed.
Print Assumptions C76_galacticus_rows.

(** The default arguments give the whole file, and its number of halos is the
    number of rows, when the columns have equal lengths. *)
Theorem C76_galacticus_whole : forall V (hdf : h5 V) mass time isolated last,
  galacticus_file hdf mass time isolated last ->
  List.length time = List.length mass -> List.length isolated = List.length mass -> List.length last = List.length mass ->
  extract_galacticus_mah_tables hdf 0 None = Ok (mass, time, isolated, last) /\
  get_nhalos_tot hdf = Ok (List.length mass).
Proof.
  intros V hdf m t i l F L1 L2 L3. split; [|exact (nhalos_eval _ _ _ _ _ F)].
  apply (proj2 (C76_galacticus_rows V hdf 0 None _)). exists m, t, i, l. split; [exact F|]. cbv zeta.
  rewrite rows_all. rewrite <- L1 at 1. rewrite rows_all. rewrite <- L2 at 1. rewrite rows_all.
  rewrite <- L3 at 1. now rewrite rows_all.
Qed.
Print Assumptions C76_galacticus_whole.

(** Reading [i, j) and [j, k) gives the rows of [i, k). *)
Theorem C76_galacticus_ranges_join : forall V (hdf : h5 V) (i j k : nat) m t s l m' t' s' l', (i <= j <= k)%nat ->
  extract_galacticus_mah_tables hdf (Z.of_nat i) (Some (Z.of_nat j)) = Ok (m, t, s, l) ->
  extract_galacticus_mah_tables hdf (Z.of_nat j) (Some (Z.of_nat k)) = Ok (m', t', s', l') ->
  extract_galacticus_mah_tables hdf (Z.of_nat i) (Some (Z.of_nat k)) = Ok (m ++ m', t ++ t', s ++ s', l ++ l').
Proof.
  intros V hdf i j k m t s l m' t' s' l' H H1 H2.
  destruct (extract_only _ _ _ _ H1) as (a & b & c & d & F). rewrite (extract_eval _ _ _ _ _ _ _ F) in H1.
  rewrite (extract_eval _ _ _ _ _ _ _ F) in H2. rewrite (extract_eval _ _ _ _ _ _ _ F).
  cbv zeta in *. rewrite !py_slice_nat in *. injection H1 as <- <- <- <-. injection H2 as <- <- <- <-.
  rewrite !rows_join by lia. reflexivity.
Qed.
Print Assumptions C76_galacticus_ranges_join.

(** Run on a file that holds [halos], the fitting script does, on every rank, what
    C51 and C66 show of its body given the halos themselves. *)
Theorem C76_galacticus_script_reads_file : forall fitter dt outdir out hdf halos nranks rank,
  galacticus_halos hdf halos ->
  galacticus_script fitter dt outdir out false hdf nranks rank =
  galacticus_main fitter dt outdir out halos nranks rank.
Proof. intros. now apply script_eval. Qed.
Print Assumptions C76_galacticus_script_reads_file.

(** So the table written has one row per halo of the file, in file order. *)
Theorem C76_galacticus_file_to_table : forall eager nranks fitter dt outdir out hdf halos T0 frs f, (0 < nranks)%nat ->
  galacticus_halos hdf halos -> (2 * nranks <= List.length halos)%nat -> latest_of halos T0 ->
  Forall2 (galacticus_fit_of fitter dt T0) halos frs -> ~ temp_file (lit "tmp_mah_fits_rank_") out ->
  every_run eager nranks (start (galacticus_script fitter dt outdir out false hdf nranks) f)
    (finished nranks outdir out (lit "tmp_mah_fits_rank_") f (fit_columns frs)).
Proof.
  intros eager nranks fitter dt outdir out hdf halos T0 frs f Hn HF H2 HL Hf HO.
  replace (galacticus_script fitter dt outdir out false hdf nranks) with (galacticus_main fitter dt outdir out halos nranks).
  - now apply (C51_galacticus eager nranks fitter dt outdir out halos T0).
  - apply FunctionalExtensionality.functional_extensionality. intros i. symmetry. now apply script_eval.
Qed.
Print Assumptions C76_galacticus_file_to_table.

(** That "-test False" asks for a full run is false: the word counts as true, and
    the run is another one as soon as a rank has more than 50 halos. *)
Definition many_halos : h5 cell :=
  Group [("Outputs", Group [("Output1", Group [("nodeData", Group
    [("haloAccretionHistoryMass", Rows (repeat (Hist [PInf]) 51));
     ("haloAccretionHistoryTime", Rows (repeat (Hist [PInf]) 51));
     ("nodeIsIsolated", Rows (repeat (Flag true) 51));
     ("basicTimeLastIsolated", Rows (repeat (Time PInf) 51))])])])]%string.

Example C76_file_example : galacticus_halos many_halos (repeat ([PInf], [PInf]) 51).
Proof. exists (repeat (Flag true) 51), (repeat (Time PInf) 51). refine (conj eq_refl (conj eq_refl (conj eq_refl eq_refl))). Qed.

(** The number of lines written before the first barrier after opening a file. *)
Fixpoint lines_written (p : prog unit) : nat :=
  match p with Barrier k => lines_written k | Open _ k => lines_written k | Write _ _ k => S (lines_written k) | _ => 0 end.

Theorem C76_test_False_refuted : exists fitter dt outdir out hdf,
  lines_written (galacticus_script fitter dt outdir out (argparse_bool (lit "False")) hdf 1 0) = 51%nat /\
  lines_written (galacticus_script fitter dt outdir out false hdf 1 0) = 52%nat.
Proof.
  exists (fun _ _ _ => Ok ex_skipped), PInf, (lit "out"), (lit "fits.h5"), many_halos.
  split; lazy; reflexivity.
Qed.
Print Assumptions C76_test_False_refuted.

(** ** HACC *)

(** load_mahs returns exactly when both packages are there, the simulation is
    known or has a configuration file, and the chunk holds the column; it returns
    the ages of the outputs and the cumulative peak masses of the chunk in Msun. *)
Theorem C76_hacc_load : forall E fn name chunk nchunks col t m, NoDup (map fst (simulations E)) ->
  load_mahs E fn name chunk nchunks col = Ok (t, m) <->
  has_haccytrees E = true /\ has_dsps E = true /\
  exists sim mats raw, simulation_named E name sim /\ corematrix_reader E fn nchunks chunk sim = Ok mats /\
    lookup col mats = Some raw /\ t = output_ages E sim /\ m = hacc_mahs raw (h sim).
Proof. intros. now apply load_mahs_inv. Qed.
Print Assumptions C76_hacc_load.

(** The times of get_cosmic_time_hacc are those of the histories. *)
Theorem C76_hacc_times_agree : forall E fn name chunk nchunks col z t t' m, NoDup (map fst (simulations E)) ->
  get_cosmic_time_hacc E name = Ok (z, t) -> load_mahs E fn name chunk nchunks col = Ok (t', m) ->
  t' = t /\ List.length z = List.length t.
Proof.
  intros E fn name chunk nchunks col z t t' m Hn H1 H2.
  apply cosmic_time_inv in H1; [|exact Hn]. destruct H1 as (_ & _ & sim & S & -> & ->).
  apply load_mahs_inv in H2; [|exact Hn]. destruct H2 as (_ & _ & sim' & mats & raw & S' & _ & _ & -> & _).
  unfold output_redshifts, output_ages. rewrite !map_length. split; [|reflexivity].
  destruct S' as [S'|[S' _]]; [|now destruct (S' sim)].
  pose proof (lookup_NoDup _ _ _ Hn S) as L. rewrite (lookup_NoDup _ _ _ Hn S') in L. now injection L as ->.
Qed.
Print Assumptions C76_hacc_times_agree.

(** That it knows the times of every simulation whose histories can be loaded is
    false: configuration files are read for the histories only. *)
Definition some_sim : HaccSim := mkHaccSim [0; 1]%Z (fun _ => Fin 0) (Fin 0) (Fin 0) (Fin 0) (Fin 1).
Definition config_env : HaccEnv :=
  mkHaccEnv true true [] (fun _ => Ok some_sim) (fun _ _ _ _ => Ok [(MASS_COLNAME, [[Fin 1; Fin 2]])]) (fun z _ _ _ _ => z).
Theorem C76_hacc_config_times_refuted : exists E fn name t m, NoDup (map fst (simulations E)) /\
  load_mahs E fn name 0 1 MASS_COLNAME = Ok (t, m) /\ List.length m = 1%nat /\
  get_cosmic_time_hacc E name = Err KeyError.
Proof.
  exists config_env, "forest"%string, "sim.cfg"%string. eexists. eexists. refine (conj (NoDup_nil _) _).
  split; [reflexivity|]. split; reflexivity.
Qed.
Print Assumptions C76_hacc_config_times_refuted.

(** Loading all chunks of a file that the reader divides into [n] chunks gives
    every halo once, in file order, with the same times for all chunks. *)
Theorem C76_hacc_chunks_join : forall E fn name n col sim (part : Z -> list (list xr)), NoDup (map fst (simulations E)) ->
  has_haccytrees E = true -> has_dsps E = true -> simulation_named E name sim ->
  (forall c, (0 <= c < n)%Z -> exists mats, corematrix_reader E fn n c sim = Ok mats /\ lookup col mats = Some (part c)) ->
  exists t m, (forall c, (0 <= c < n)%Z -> load_mahs E fn name c n col = Ok (t, m c)) /\
    concat (map m (zrange 0 n)) = hacc_mahs (concat (map part (zrange 0 n))) (h sim).
Proof.
  intros E fn name n col sim part Hn H1 H2 S F.
  exists (output_ages E sim), (fun c => hacc_mahs (part c) (h sim)). split.
  - intros c Hc. destruct (F c Hc) as (mats & M & L). apply load_mahs_inv; [exact Hn|].
    refine (conj H1 (conj H2 _)). now exists sim, mats, (part c).
  - now rewrite hacc_mahs_concat, map_map.
Qed.
Print Assumptions C76_hacc_chunks_join.

Example C76_hacc_example : exists t m, load_mahs config_env "forest" "sim.cfg" 0 1 MASS_COLNAME = Ok (t, m).
Proof. eexists. eexists. reflexivity. Qed.

Example C76_hacc_chunks_example : exists t m,
  (forall c, (0 <= c < 3)%Z -> load_mahs config_env "forest" "sim.cfg" c 3 MASS_COLNAME = Ok (t, m c)) /\
  concat (map m (zrange 0 3)) = hacc_mahs [[Fin 1; Fin 2]; [Fin 1; Fin 2]; [Fin 1; Fin 2]] (Fin 1).
Proof.
  apply (C76_hacc_chunks_join config_env "forest" "sim.cfg" 3 MASS_COLNAME some_sim (fun _ => [[Fin 1; Fin 2]]));
    [constructor|reflexivity|reflexivity|right; split; [intros s []|reflexivity]|].
  intros c _. eexists. split; reflexivity.
Qed.

(** Without the packages the two functions fail in different ways. *)
Theorem C76_hacc_packages : forall E fn name chunk nchunks col,
  (has_haccytrees E = false -> load_mahs E fn name chunk nchunks col = Err ImportError /\
     get_cosmic_time_hacc E name = Err NameError) /\
  (has_dsps E = false -> (forall r, load_mahs E fn name chunk nchunks col <> Ok r) /\
     (forall r, get_cosmic_time_hacc E name <> Ok r)).
Proof.
  intros E fn name chunk nchunks col. split; intros H.
  - unfold load_mahs, load_forest, get_cosmic_time_hacc. rewrite H. split; reflexivity.
  - unfold load_mahs, get_cosmic_time_hacc. rewrite H. cbn [negb]. split; intros r X.
    + destruct (load_forest E fn name chunk nchunks) as [[[s m] z]|]; [|discriminate]. cbn [bind] in X.
      destruct (lookup col m); discriminate.
    + destruct (has_haccytrees E); [|discriminate]. cbn [negb] in X. destruct (lookup name (simulations E)); discriminate.
Qed.
Print Assumptions C76_hacc_packages.
