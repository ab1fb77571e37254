(** Property C77: test runs of the fitting scripts (-test). *)

From Coq Require Import Reals Lra Lia List ZArith Bool Ascii String FunctionalExtensionality.
From Verif Require Import Model_Num RealAux Model_Base Model_Kernels Model_Adam Model_Fitter Model_Outline
  Model_Utils Model_Data Model_MPI Model_SimLoad Model_TestRuns Spec_Kernels Spec_Fitter Spec_Outline Spec_MPI Spec_SimLoad
  Spec_Data Spec_TestRuns Proofs_Fitter Proofs_Outline2 Props_Outline Proofs_MPI5 Proofs_MPI6 Proofs_MPI7 Proofs_TestRuns Props_MPI Props_SimLoad.
Import ListNotations.
Local Open Scope list_scope.

(** Without the switch the scripts are those of C51. *)
Theorem C77_full_runs : forall nranks,
  (forall fitter outdir nchunks mahs,
     tng_script fitter outdir false nchunks mahs nranks = tng_main fitter outdir mahs nranks) /\
  (forall fitter outdir ids mahs times,
     bpl_script fitter outdir false ids mahs times nranks = bpl_main fitter outdir ids mahs times nranks) /\
  (forall fitter load outdir nchunks num istart iend,
     lastjourney_script fitter load outdir false nchunks num istart iend nranks =
     lastjourney_main fitter load outdir nchunks (lastjourney_subvolumes num istart iend) nranks) /\
  (forall fitter load outdir avail nchunks istart iend,
     discovery_script fitter load outdir false avail nchunks istart iend nranks =
     discovery_main fitter load outdir nchunks (py_slice istart (Some iend) avail) nranks).
Proof. intros n. refine (conj _ (conj _ (conj _ _))); reflexivity. Qed.
Print Assumptions C77_full_runs.

(** TNG: a test run is not short.  It fits every halo, like a full run. *)
Theorem C77_tng_all_halos : forall eager nranks fitter outdir is_test nchunks mahs frs f, (0 < nranks)%nat ->
  (2 * nranks <= List.length mahs)%nat -> Forall2 (fun mah fr => fitter mah = Ok fr) mahs frs ->
  every_run eager nranks (start (tng_script fitter outdir is_test nchunks mahs nranks) f)
    (finished nranks outdir (lit "diffmah_tng_fits.hdf5") (lit "tmp_mah_fits_rank_") f (fit_columns frs)).
Proof. intros. unfold tng_script. now apply C51_tng. Qed.
Print Assumptions C77_tng_all_halos.

Example C77_tng_example : forall eager f,
  every_run eager 2 (start (tng_script (fun _ => Ok ex_skipped) (lit "out") true 20 [[]; [Fin 1]; []; [Fin 2]; []] 2) f)
    (finished 2 (lit "out") (lit "diffmah_tng_fits.hdf5") (lit "tmp_mah_fits_rank_") f
       (fit_columns [ex_skipped; ex_skipped; ex_skipped; ex_skipped; ex_skipped])).
Proof. intros eager f. apply C77_tng_all_halos; [lia|cbn; lia|repeat constructor]. Qed.

(** Bolshoi-Planck: the table has the first five halos per rank; whether the others
    can be fitted does not matter.  The table of targets has all halos. *)
Theorem C77_bolshoi : forall eager nranks fitter outdir ids mahs times frs f, (0 < nranks)%nat ->
  List.length ids = List.length mahs -> (5 * nranks <= List.length mahs)%nat ->
  Forall2 (fun mah fr => fitter mah = Ok fr) (firstn (5 * nranks) mahs) frs ->
  every_run eager nranks (start (bpl_script fitter outdir true ids mahs times nranks) f)
    (finished nranks outdir (lit "diffmah_fits.hdf5") (lit "tmp_mah_fits_rank_")
       (fset f (bpl_target_file outdir) (Some (H5 (bpl_target_table ids mahs times))))
       (fit_columns_with_ids (firstn (5 * nranks) ids) frs)).
Proof.
  intros eager n fitter outdir ids mahs times frs f Hn HI HL HF. rewrite bpl_script_test by lia.
  apply (bpl_run_finished eager n Hn fitter outdir); [rewrite !firstn_length; lia|rewrite firstn_length; lia|exact HF].
Qed.
Print Assumptions C77_bolshoi.

Theorem C77_bolshoi_failing_fit : forall eager nranks fitter outdir ids mahs times mah e f, (0 < nranks)%nat ->
  List.length ids = List.length mahs -> (5 * nranks <= List.length mahs)%nat ->
  In mah (firstn (5 * nranks) mahs) -> fitter mah = Err e ->
  every_run eager nranks (start (bpl_script fitter outdir true ids mahs times nranks) f)
    (failed nranks outdir tmp_name (fset f (bpl_target_file outdir) (Some (H5 (bpl_target_table ids mahs times))))).
Proof.
  intros eager n fitter outdir ids mahs times mah e f Hn HI HL Hin E. rewrite bpl_script_test by lia.
  apply (bpl_run_failed eager n Hn fitter outdir) with (m := mah) (e := e); [rewrite !firstn_length; lia|exact Hin|exact E].
Qed.
Print Assumptions C77_bolshoi_failing_fit.

(** With fewer than five halos per rank a test run does not work, although a full
    run may: the last rank stops with IndexError, no rank ever returns, and no
    table of fits is written. *)
Theorem C77_bolshoi_few_halos : forall eager nranks fitter outdir ids mahs times f, (0 < nranks)%nat ->
  List.length ids = List.length mahs -> (List.length mahs < 5 * nranks)%nat ->
  every_run eager nranks (start (bpl_script fitter outdir true ids mahs times nranks) f) (fun s =>
    (forall i r, (i < nranks)%nat -> procs s i <> Exit (Ok r)) /\
    procs s (nranks - 1)%nat = Exit (Err IndexError) /\
    (forall q, (forall i, (i < nranks)%nat -> q <> (outdir, tmp_name i)) ->
       fs s q = fset f (bpl_target_file outdir) (Some (H5 (bpl_target_table ids mahs times))) q)).
Proof. intros eager n fitter outdir ids mahs times f Hn HI HL. apply bpl_short; lia. Qed.
Print Assumptions C77_bolshoi_few_halos.

(** That a test run works whenever a full run does is false. *)
Theorem C77_refuted : forall eager, exists nranks fitter ids mahs times frs,
  every_run eager nranks (start (bpl_script fitter (lit "out") false ids mahs times nranks) (fun _ => None))
    (finished nranks (lit "out") (lit "diffmah_fits.hdf5") (lit "tmp_mah_fits_rank_")
       (fset (fun _ => None) (bpl_target_file (lit "out")) (Some (H5 (bpl_target_table ids mahs times)))) (fit_columns_with_ids ids frs)) /\
  every_run eager nranks (start (bpl_script fitter (lit "out") true ids mahs times nranks) (fun _ => None)) (fun s =>
    (forall i r, (i < nranks)%nat -> procs s i <> Exit (Ok r)) /\ fs s (lit "out", lit "diffmah_fits.hdf5") = None).
Proof.
  intros eager. exists 1%nat, (fun _ => Ok ex_skipped), [7; 8]%Z, [[Fin 1]; [Fin 2]], [Fin 3], [ex_skipped; ex_skipped]. split.
  - apply (C51_bolshoi eager 1 _ (lit "out") [7; 8]%Z [[Fin 1]; [Fin 2]]); [lia|reflexivity|cbn; lia|repeat constructor].
  - destruct (C77_bolshoi_few_halos eager 1 (fun _ => Ok ex_skipped) (lit "out") [7; 8]%Z [[Fin 1]; [Fin 2]] [Fin 3] (fun _ => None)) as [B R];
      [lia|reflexivity|cbn; lia|].
    split; [exact B|]. intros k s S N. destruct (R k s S N) as (R1 & _ & R3). split; [exact R1|].
    rewrite R3; [reflexivity|]. intros i Hi E. apply (f_equal snd) in E. cbn [snd] in E. discriminate.
Qed.
Print Assumptions C77_refuted.

(** Six halos on one rank, the last of which cannot be fitted. *)
Example C77_bolshoi_example : forall eager f,
  let fitter := fun mah => match mah with [] => Err ValueError | _ => Ok ex_skipped end in
  let mahs := [[Fin 1]; [Fin 2]; [Fin 3]; [Fin 4]; [Fin 5]; []] in
  every_run eager 1 (start (bpl_script fitter (lit "out") true [1; 2; 3; 4; 5; 6]%Z mahs [Fin 3] 1) f)
    (finished 1 (lit "out") (lit "diffmah_fits.hdf5") (lit "tmp_mah_fits_rank_")
       (fset f (bpl_target_file (lit "out")) (Some (H5 (bpl_target_table [1; 2; 3; 4; 5; 6]%Z mahs [Fin 3]))))
       (fit_columns_with_ids [1; 2; 3; 4; 5]%Z (repeat ex_skipped 5))).
Proof.
  intros eager f fitter mahs.
  apply (C77_bolshoi eager 1 fitter (lit "out") [1; 2; 3; 4; 5; 6]%Z mahs); [lia|reflexivity|cbn; lia|repeat constructor].
Qed.

(** Galacticus: the halos are cut into one section per rank as in a full run, and
    the table has the first 50 of every section.  The end of the simulation is
    still the latest time of all halos. *)
Theorem C77_galacticus : forall eager nranks fitter dt outdir out hdf halos secs T0 frs f, (0 < nranks)%nat ->
  galacticus_halos hdf halos -> (2 * nranks <= List.length halos)%nat -> latest_of halos T0 ->
  even_sections halos nranks secs ->
  Forall2 (galacticus_fit_of fitter dt T0) (List.concat (map (firstn 50) secs)) frs ->
  ~ temp_file (lit "tmp_mah_fits_rank_") out ->
  every_run eager nranks (start (galacticus_script fitter dt outdir out true hdf nranks) f)
    (finished nranks outdir out (lit "tmp_mah_fits_rank_") f (fit_columns frs)).
Proof.
  intros eager n fitter dt outdir out hdf halos secs T0 frs f Hn HH HL (ls & H3 & H4 & H5) HS HF HO.
  apply even_sections_parts in HS; [subst secs|exact Hn]. rewrite (script_test_eval _ _ _ _ hdf halos) by exact HH.
  apply (galacticus_run_finished eager n Hn fitter dt outdir out halos (kept n halos) (firstn 50)
    (fun i => kept_parts n halos i Hn) ls T0); try assumption; [lia|now apply kept_length].
Qed.
Print Assumptions C77_galacticus.

(** Such sections are there and are determined. *)
Theorem C77_sections : forall A (l : list A) n, (0 < n)%nat -> exists! secs, even_sections l n secs.
Proof.
  intros A l n Hn. exists (parts n l). split; [now apply parts_even|]. intros secs H. symmetry. now apply even_sections_parts.
Qed.
Print Assumptions C77_sections.

(** With at most 50 halos per rank a test run writes the table of the full run. *)
Theorem C77_galacticus_small_file : forall eager nranks fitter dt outdir out hdf halos T0 frs f, (0 < nranks)%nat ->
  galacticus_halos hdf halos -> (2 * nranks <= List.length halos <= 50 * nranks)%nat -> latest_of halos T0 ->
  Forall2 (galacticus_fit_of fitter dt T0) halos frs -> ~ temp_file (lit "tmp_mah_fits_rank_") out ->
  every_run eager nranks (start (galacticus_script fitter dt outdir out true hdf nranks) f)
    (finished nranks outdir out (lit "tmp_mah_fits_rank_") f (fit_columns frs)).
Proof.
  intros eager n fitter dt outdir out hdf halos T0 frs f Hn HH [H2 H50] HL HF HO.
  apply (C77_galacticus eager n fitter dt outdir out hdf halos (parts n halos) T0); try assumption; [now apply parts_even|].
  fold (kept n halos). now rewrite kept_few.
Qed.
Print Assumptions C77_galacticus_small_file.

(** A halo that is in the test sample and cannot be fitted stops the run. *)
Theorem C77_galacticus_failing_fit : forall eager nranks fitter dt outdir out hdf halos secs T0 h f, (0 < nranks)%nat ->
  galacticus_halos hdf halos -> (nranks <= List.length halos)%nat -> latest_of halos T0 ->
  even_sections halos nranks secs -> In h (List.concat (map (firstn 50) secs)) ->
  (forall fr, ~ galacticus_fit_of fitter dt T0 h fr) ->
  every_run eager nranks (start (galacticus_script fitter dt outdir out true hdf nranks) f) (failed nranks outdir tmp_name f).
Proof.
  intros eager n fitter dt outdir out hdf halos secs T0 h f Hn HH HL (ls & H3 & H4 & H5) HS Hin HF.
  apply even_sections_parts in HS; [subst secs|exact Hn]. rewrite (script_test_eval _ _ _ _ hdf halos) by exact HH.
  now apply (galacticus_run_failed eager n Hn fitter dt outdir out halos (kept n halos) (firstn 50)
    (fun i => kept_parts n halos i Hn) ls T0 h).
Qed.
Print Assumptions C77_galacticus_failing_fit.

(** The 51 halos of the file of C76 on one rank: 50 rows. *)
Example C77_galacticus_example : forall eager f,
  every_run eager 1 (start (galacticus_script (fun _ _ _ => Ok ex_skipped) (Fin 1) (lit "out") (lit "fits.hdf5") true many_halos 1) f)
    (finished 1 (lit "out") (lit "fits.hdf5") (lit "tmp_mah_fits_rank_") f (fit_columns (repeat ex_skipped 50))).
Proof.
  intros eager f.
  apply (C77_galacticus eager 1 _ (Fin 1) (lit "out") (lit "fits.hdf5") many_halos (repeat ([PInf], [PInf]) 51)
    [repeat ([PInf], [PInf]) 51] PInf).
  - lia.
  - exact C76_file_example.
  - rewrite repeat_length. lia.
  - exists (repeat PInf 51). split; [repeat constructor|]. split; [intros H; apply repeat_spec in H; discriminate|].
    split; [now left|]. intros t H. apply repeat_spec in H. subst t. exact I.
  - split.
    + refine (conj eq_refl (conj eq_refl _)). intros a b [<- |[]] [<- |[]]. lia.
    + intros i j a b _ Ha Hb. apply nth_error_In in Ha, Hb. destruct Ha as [<- |[]], Hb as [<- |[]]. lia.
  - change (List.concat (map (firstn 50) [repeat ([PInf], [PInf]) 51])) with (repeat ([PInf], [PInf]) 50).
    assert (X : galacticus_fit_of (fun _ _ _ => Ok ex_skipped) (Fin 1) PInf ([PInf], [PInf]) ex_skipped).
    { exists PInf, PInf, false. refine (conj eq_refl (conj eq_refl (conj _ _))).
      - split; [discriminate|]. intros H. vm_compute in H. discriminate.
      - right. split; [intros H; vm_compute in H; discriminate|reflexivity]. }
    generalize 50%nat. intros k. induction k as [|k IH]; [constructor|]. cbn [repeat]. now constructor.
  - intros (mid & E & _). discriminate.
Qed.

(** Last Journey: chunks 0, 1 and 2 of subvolume 0 and nothing else, whatever
    -istart and -iend. *)
Theorem C77_lastjourney : forall eager nranks fitter load outdir nchunks num istart iend frs f, (0 < nranks)%nat -> (0 < num)%Z ->
  (forall c, (0 <= c < 3)%Z -> @fits_of nranks fitter (load 0%Z c) (frs 0%Z c)) ->
  every_run eager nranks (start (lastjourney_script fitter load outdir true nchunks num istart iend nranks) f) (fun st =>
    all_return nranks st (fun _ => tt) /\ no_messages st /\
    chunks_done (List.length (str_of_int nchunks)) outdir (fun s c => s = 0%Z /\ (0 <= c < 3)%Z) frs f (fs st)).
Proof. intros. now apply lastjourney_test. Qed.
Print Assumptions C77_lastjourney.

Example C77_lastjourney_example : forall eager f,
  every_run eager 2 (start (lastjourney_script (fun _ _ => Ok ex_skipped)
    (fun s c => if (s =? 0)%Z && (c <? 3)%Z then Ok ([Fin 1], [[Fin 1]; [Fin 2]; [Fin 3]; [Fin 4]]) else Err ValueError)
    (lit "out") true 20 256 5 7 2) f) (fun st =>
    all_return 2 st (fun _ => tt) /\
    exists h, fs st (lit "out", lit "subvol_0_chunk_02.hdf5") = Some (H5 h) /\ fit_columns (repeat ex_skipped 4) h).
Proof.
  intros eager f.
  destruct (C77_lastjourney eager 2 (fun _ _ => Ok ex_skipped)
    (fun s c => if (s =? 0)%Z && (c <? 3)%Z then Ok ([Fin 1], [[Fin 1]; [Fin 2]; [Fin 3]; [Fin 4]]) else Err ValueError)
    (lit "out") 20 256 5 7 (fun _ _ => repeat ex_skipped 4) f) as [B R]; [lia|lia| |].
  - intros c Hc. exists [Fin 1], [[Fin 1]; [Fin 2]; [Fin 3]; [Fin 4]]. split; [|split; [cbn; lia|repeat constructor]].
    cbn [Z.eqb andb]. destruct (Z.ltb_spec c 3); [reflexivity|lia].
  - split; [exact B|]. intros k st S N. destruct (R k st S N) as (R1 & _ & D & _). split; [exact R1|].
    apply (D 0%Z 2%Z). split; [reflexivity|lia].
Qed.

(** Without subvolumes (Last Journey) or files (Discovery) a test run raises on
    every rank, where a full run has nothing to do; nothing is written. *)
Theorem C77_nothing_to_test : forall eager nranks fitter load outdir nchunks num istart iend f,
  ((num <= 0)%Z ->
   every_run eager nranks (start (lastjourney_script fitter load outdir true nchunks num istart iend nranks) f) (fun st =>
     (forall i, (i < nranks)%nat -> procs st i = Exit (Err IndexError)) /\ fs st = f)) /\
  every_run eager nranks (start (discovery_script fitter load outdir true [] nchunks istart iend nranks) f) (fun st =>
     (forall i, (i < nranks)%nat -> procs st i = Exit (Err IndexError)) /\ fs st = f) /\
  every_run eager nranks (start (discovery_script fitter load outdir false [] nchunks istart iend nranks) f) (fun st =>
     (forall i, (i < nranks)%nat -> procs st i = Exit (Ok tt)) /\ fs st = f).
Proof.
  intros eager n fitter load outdir nchunks num istart iend f. refine (conj _ (conj _ _)).
  - intros H. apply at_once. intros i. unfold lastjourney_script, hacc_jobs, zrange.
    replace (Z.to_nat (num - 0)) with 0%nat by lia. reflexivity.
  - apply at_once. reflexivity.
  - apply at_once. intros i. rewrite discovery_script_full. unfold discovery_main, py_slice, slice.
    now rewrite skipn_nil, firstn_nil.
Qed.
Print Assumptions C77_nothing_to_test.

(** Discovery: a test run stops like a full one, with AttributeError on every rank. *)
Theorem C77_discovery_refuted : forall eager nranks fitter load outdir s later nchunks istart iend tarr mahs f, (0 < nranks)%nat ->
  load s 0%Z = Ok (tarr, mahs) ->
  let tmp := chunk_tmp (List.length (str_of_int nchunks)) s 0%Z in
  every_run eager nranks (start (discovery_script fitter load outdir true (s :: later) nchunks istart iend nranks) f) (fun st =>
    (forall i, (i < nranks)%nat -> procs st i = Exit (Err AttributeError)) /\
    (forall i, (i < nranks)%nat -> fs st (outdir, tmp i) = Some (Text [])) /\
    (forall q, (forall i, (i < nranks)%nat -> q <> (outdir, tmp i)) -> fs st q = f q)).
Proof.
  intros eager n fitter load outdir s later nchunks istart iend tarr mahs f Hn EL.
  apply (discovery_stops_at eager n Hn load outdir _ s tarr mahs _ f EL). intros i. reflexivity.
Qed.
Print Assumptions C77_discovery_refuted.
