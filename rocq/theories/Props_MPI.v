(** Properties C49 (message passing), C51, C52 and C66: the MPI fitting scripts and the
    unchunk script.

    [eager i j m] says whether rank [i] may go on before rank [j] has received its
    message [m]; the theorems hold for all of them and for every schedule. *)

From Coq Require Import Reals Lra Lia List ZArith Bool Ascii String FunctionalExtensionality.
From Verif Require Import Model_Num RealAux Model_Base Model_Kernels Model_Adam Model_Fitter Model_Outline
  Model_Utils Model_Data Model_MPI Spec_Kernels Spec_Fitter Spec_Outline Spec_MPI Proofs_Fitter Proofs_Fitter2 Proofs_Outline
  Proofs_Outline2 Props_Outline Spec_Data Proofs_Data Proofs_MPI Proofs_MPI2 Proofs_MPI3 Proofs_MPI4 Proofs_MPI5 Proofs_MPI6 Proofs_MPI7 Proofs_MPI8 Proofs_MPI9 Proofs_MPI10 Proofs_MPI11.
Import ListNotations.
Local Open Scope list_scope.

(** ** C49: scattering rows by messages *)

(** [rows i] is the array rank [i] passes; only the root's matters. *)
Theorem C49_scatter : forall eager nranks root (rows : nat -> list (list xr)) f, (root < nranks)%nat ->
  exists parts, balanced_partition (rows root) nranks parts /\
  every_run eager nranks
    (start (fun rank => scatter_nd (rows rank) rank nranks root (fun mine => Exit (Ok mine))) f)
    (fun s => all_return nranks s (fun rank => nth rank parts []) /\ no_messages s /\ fs s = f).
Proof.
  intros eager nranks root rows f Hr. exists (parts nranks (rows root)). split; [|now apply scatter_runs].
  destruct (array_split_partition (rows root) nranks ltac:(lia)) as (ps & E & H).
  rewrite parts_split in E by lia. now injection E as ->.
Qed.
Print Assumptions C49_scatter.

(** All ranks get the same times and their own rows of what rank 0 has loaded. *)
Theorem C49_load_per_rank : forall eager nranks tarr mahs f, (0 < nranks)%nat ->
  exists parts, balanced_partition mahs nranks parts /\
  every_run eager nranks
    (start (fun rank => load_mahs_per_rank (Ok (tarr, mahs)) rank nranks (fun t mine => Exit (Ok (t, mine)))) f)
    (fun s => all_return nranks s (fun rank => (tarr, nth rank parts [])) /\ no_messages s /\ fs s = f).
Proof.
  intros eager nranks tarr mahs f Hn. exists (parts nranks mahs). split; [|now apply load_runs].
  destruct (array_split_partition mahs nranks ltac:(lia)) as (ps & E & H).
  rewrite parts_split in E by lia. now injection E as ->.
Qed.
Print Assumptions C49_load_per_rank.

(** If rank 0 cannot load the file, no rank ever returns. *)
Theorem C49_load_failure : forall eager nranks e f, (0 < nranks)%nat ->
  every_run eager nranks
    (start (fun rank => load_mahs_per_rank (Err e) rank nranks (fun t mine => Exit (Ok (t, mine)))) f)
    (fun s => procs s 0%nat = Exit (Err e) /\ (forall rank r, (rank < nranks)%nat -> procs s rank <> Exit (Ok r)) /\ fs s = f).
Proof. intros. now apply load_stuck. Qed.
Print Assumptions C49_load_failure.

(** Three rows for two ranks, the second one being the root. *)
Example C49_scatter_example : forall eager f,
  every_run eager 2
    (start (fun rank => scatter_nd [[Fin 1]; [Fin 2]; [Fin 3]] rank 2 1 (fun mine => Exit (Ok mine))) f)
    (fun s => procs s 0%nat = Exit (Ok [[Fin 1]; [Fin 2]]) /\ procs s 1%nat = Exit (Ok [[Fin 3]])).
Proof.
  intros eager f. destruct (scatter_runs eager 2 (fun _ => [[Fin 1]; [Fin 2]; [Fin 3]]) 1 f ltac:(lia)) as [B R].
  split; [exact B|]. intros k s' S N. destruct (R k s' S N) as (R1 & _). split; [exact (R1 0%nat ltac:(lia))|exact (R1 1%nat ltac:(lia))].
Qed.

(** ** C51: fitting with many ranks *)

(** TNG.  At least two halos per rank and every fit returns: whatever the schedule,
    one row per halo, in order; the temporary files are gone, nothing else changed. *)
Theorem C51_tng : forall eager nranks fitter outdir mahs frs f, (0 < nranks)%nat ->
  (2 * nranks <= List.length mahs)%nat -> Forall2 (fun mah fr => fitter mah = Ok fr) mahs frs ->
  every_run eager nranks (start (tng_main fitter outdir mahs nranks) f)
    (finished nranks outdir (lit "diffmah_tng_fits.hdf5") (lit "tmp_mah_fits_rank_") f (fit_columns frs)).
Proof. intros. now apply tng_finished. Qed.
Print Assumptions C51_tng.

(** Fewer than two halos per rank: every fit succeeds, and no table is written. *)
Theorem C51_tng_few_halos : forall eager nranks fitter outdir mahs frs f, (0 < nranks)%nat ->
  (List.length mahs < 2 * nranks)%nat -> Forall2 (fun mah fr => fitter mah = Ok fr) mahs frs ->
  every_run eager nranks (start (tng_main fitter outdir mahs nranks) f)
    (fun s => not_collated nranks outdir tmp_name HEADER (fun fr => get_outline fr None) f frs s /\
       forall i, (0 < i < nranks)%nat -> procs s i = Exit (Ok tt)).
Proof. intros. now apply tng_few. Qed.
Print Assumptions C51_tng_few_halos.

(** One failing fit stops everything: no rank returns, no table is written. *)
Theorem C51_tng_failing_fit : forall eager nranks fitter outdir mahs mah e f, (0 < nranks)%nat ->
  In mah mahs -> fitter mah = Err e ->
  every_run eager nranks (start (tng_main fitter outdir mahs nranks) f) (failed nranks outdir tmp_name f).
Proof. intros eager nranks fitter outdir mahs mah e f Hn. now apply tng_failed. Qed.
Print Assumptions C51_tng_failing_fit.

(** The claim without the number of halos is false. *)
Theorem C51_refuted : exists nranks fitter mahs frs, (0 < nranks)%nat /\
  Forall2 (fun mah fr => fitter mah = Ok fr) mahs frs /\
  forall eager outdir, every_run eager nranks (start (tng_main fitter outdir mahs nranks) (fun _ => None))
    (fun s => (exists e, procs s 0%nat = Exit (Err e)) /\ fs s (outdir, lit "diffmah_tng_fits.hdf5") = None).
Proof.
  exists 2%nat, (fun _ => Ok ex_skipped), [[]; []; []], [ex_skipped; ex_skipped; ex_skipped].
  split; [lia|]. split; [repeat constructor|]. intros eager outdir.
  destruct (tng_few eager 2 ltac:(lia) (fun _ => Ok ex_skipped) outdir [[]; []; []] [ex_skipped; ex_skipped; ex_skipped] (fun _ => None)) as [B R].
  - cbn. lia.
  - repeat constructor.
  - split; [exact B|]. intros k s' S N. destruct (R k s' S N) as [(R1 & R2 & R3) _]. split; [exact R1|].
    apply R3. intros i Hi E. apply (f_equal snd) in E. cbn [snd] in E. discriminate.
Qed.
Print Assumptions C51_refuted.

Example C51_tng_example : forall eager f,
  every_run eager 2 (start (tng_main (fun _ => Ok ex_skipped) (lit "out") [[]; [Fin 1]; []; [Fin 2]; []] 2) f)
    (finished 2 (lit "out") (lit "diffmah_tng_fits.hdf5") (lit "tmp_mah_fits_rank_") f
       (fit_columns [ex_skipped; ex_skipped; ex_skipped; ex_skipped; ex_skipped])).
Proof. intros eager f. apply C51_tng; [lia|cbn; lia|repeat constructor]. Qed.

(** Bolshoi-Planck.  The rows start with the halo id; a second table holds the data
    that were fitted. *)
Definition bpl_target_file (outdir : str) : path := (outdir, lit "bpl_mpeak_histories.hdf5").
Definition bpl_target_table (ids : list Z) (mahs : list (list xr)) (times : list xr) : hdf :=
  [(lit "halo_id", IntCol ids); (lit "mpeak_history", FloatCol (List.concat mahs)); (lit "bpl_t_table", FloatCol times)].

Theorem C51_bolshoi : forall eager nranks fitter outdir ids mahs times frs f, (0 < nranks)%nat ->
  List.length ids = List.length mahs -> (2 * nranks <= List.length mahs)%nat ->
  Forall2 (fun mah fr => fitter mah = Ok fr) mahs frs ->
  every_run eager nranks (start (bpl_main fitter outdir ids mahs times nranks) f)
    (finished nranks outdir (lit "diffmah_fits.hdf5") (lit "tmp_mah_fits_rank_")
       (fset f (bpl_target_file outdir) (Some (H5 (bpl_target_table ids mahs times)))) (fit_columns_with_ids ids frs)).
Proof. intros. now apply bpl_finished. Qed.
Print Assumptions C51_bolshoi.

Theorem C51_bolshoi_few_halos : forall eager nranks fitter outdir ids mahs times frs f, (0 < nranks)%nat ->
  List.length ids = List.length mahs -> (List.length mahs < 2 * nranks)%nat ->
  Forall2 (fun mah fr => fitter mah = Ok fr) mahs frs ->
  every_run eager nranks (start (bpl_main fitter outdir ids mahs times nranks) f)
    (fun s => not_collated nranks outdir tmp_name HEADER_HALO_ID (fun p => get_outline (snd p) (Some (fst p)))
                (fset f (bpl_target_file outdir) (Some (H5 (bpl_target_table ids mahs times)))) (combine ids frs) s /\
       forall i, (0 < i < nranks)%nat -> procs s i = Exit (Ok tt)).
Proof. intros. now apply bpl_few. Qed.
Print Assumptions C51_bolshoi_few_halos.

Theorem C51_bolshoi_failing_fit : forall eager nranks fitter outdir ids mahs times mah e f, (0 < nranks)%nat ->
  List.length ids = List.length mahs -> In mah mahs -> fitter mah = Err e ->
  every_run eager nranks (start (bpl_main fitter outdir ids mahs times nranks) f)
    (failed nranks outdir tmp_name (fset f (bpl_target_file outdir) (Some (H5 (bpl_target_table ids mahs times))))).
Proof. intros eager nranks fitter outdir ids mahs times mah e f Hn HI Hin E. exact (bpl_failed eager nranks Hn fitter outdir ids mahs times HI mah e f Hin E). Qed.
Print Assumptions C51_bolshoi_failing_fit.

Example C51_bolshoi_example : forall eager f,
  every_run eager 1 (start (bpl_main (fun _ => Ok ex_skipped) (lit "out") [7; 8]%Z [[Fin 1]; [Fin 2]] [Fin 3] 1) f)
    (finished 1 (lit "out") (lit "diffmah_fits.hdf5") (lit "tmp_mah_fits_rank_")
       (fset f (bpl_target_file (lit "out")) (Some (H5 (bpl_target_table [7; 8]%Z [[Fin 1]; [Fin 2]] [Fin 3]))))
       (fit_columns_with_ids [7; 8]%Z [ex_skipped; ex_skipped])).
Proof. intros eager f. apply C51_bolshoi; [lia|reflexivity|cbn; lia|repeat constructor]. Qed.

(** Galacticus.  [lasts] are the last times of the halos and [T0] is the latest of
    them, over all ranks. *)
Definition latest_of (halos : list (list xr * list xr)) (T0 : xr) : Prop :=
  exists lasts, Forall2 (fun h t => hd_error (rev (fst h)) = Some t) halos lasts /\ ~ In NaN lasts /\
    In T0 lasts /\ forall t, In t lasts -> xle t T0.

Theorem C51_galacticus : forall eager nranks fitter dt outdir out halos T0 frs f, (0 < nranks)%nat ->
  (2 * nranks <= List.length halos)%nat -> latest_of halos T0 ->
  Forall2 (galacticus_fit_of fitter dt T0) halos frs -> ~ temp_file (lit "tmp_mah_fits_rank_") out ->
  every_run eager nranks (start (galacticus_main fitter dt outdir out halos nranks) f)
    (finished nranks outdir out (lit "tmp_mah_fits_rank_") f (fit_columns frs)).
Proof.
  intros eager nranks fitter dt outdir out halos T0 frs f Hn H2 (ls & H3 & H4 & H5) HF HO.
  now apply (galacticus_finished eager nranks Hn fitter dt outdir out halos ls T0).
Qed.
Print Assumptions C51_galacticus.

Theorem C51_galacticus_few_halos : forall eager nranks fitter dt outdir out halos T0 frs f, (0 < nranks)%nat ->
  (nranks <= List.length halos < 2 * nranks)%nat -> latest_of halos T0 ->
  Forall2 (galacticus_fit_of fitter dt T0) halos frs ->
  every_run eager nranks (start (galacticus_main fitter dt outdir out halos nranks) f)
    (fun s => not_collated nranks outdir tmp_name HEADER (fun fr => get_outline fr None) f frs s /\
       forall i, (0 < i < nranks)%nat -> procs s i = Exit (Ok tt)).
Proof.
  intros eager nranks fitter dt outdir out halos T0 frs f Hn H2 (ls & H3 & H4 & H5) HF.
  now apply (galacticus_few eager nranks Hn fitter dt outdir out halos ls T0).
Qed.
Print Assumptions C51_galacticus_few_halos.

(** More ranks than halos: nothing is done, and no rank returns. *)
Theorem C51_galacticus_more_ranks : forall eager nranks fitter dt outdir out halos f, (0 < nranks)%nat ->
  (List.length halos < nranks)%nat ->
  every_run eager nranks (start (galacticus_main fitter dt outdir out halos nranks) f)
    (fun s => (forall i, (i < nranks)%nat -> procs s i <> Exit (Ok tt)) /\
              procs s (nranks - 1)%nat = Exit (Err IndexError) /\ fs s = f).
Proof. intros. now apply galacticus_none. Qed.
Print Assumptions C51_galacticus_more_ranks.

Theorem C51_galacticus_failing_fit : forall eager nranks fitter dt outdir out halos T0 h f, (0 < nranks)%nat ->
  (nranks <= List.length halos)%nat -> latest_of halos T0 ->
  In h halos -> (forall fr, ~ galacticus_fit_of fitter dt T0 h fr) ->
  every_run eager nranks (start (galacticus_main fitter dt outdir out halos nranks) f) (failed nranks outdir tmp_name f).
Proof.
  intros eager nranks fitter dt outdir out halos T0 h f Hn H2 (ls & H3 & H4 & H5) Hin HF.
  now apply (galacticus_failed eager nranks Hn fitter dt outdir out halos ls T0 h).
Qed.
Print Assumptions C51_galacticus_failing_fit.

(** Two halos, the first of which ends early. *)
Lemma xlt_Fin a b : xlt (Fin a) (Fin b) <-> (a < b)%R.
Proof. unfold xlt. cbn. apply Rltb_true. Qed.

Example C51_galacticus_example : forall eager f,
  let halos := [([Fin 1; Fin 2], [Fin 5; Fin 6]); ([Fin 1; Fin 3], [Fin 7; Fin 6])] in
  latest_of halos (Fin 3) /\
  every_run eager 1 (start (galacticus_main (fun t m skip => if skip then Err ValueError else Ok ex_skipped) (Fin 1) (lit "out") (lit "fits.hdf5") halos 1) f)
    (finished 1 (lit "out") (lit "fits.hdf5") (lit "tmp_mah_fits_rank_") f (fit_columns [ex_skipped; ex_skipped])).
Proof.
  intros eager f halos.
  assert (HL : latest_of halos (Fin 3)).
  { exists [Fin 2; Fin 3]. split; [repeat constructor|]. split; [intros [X|[X|[]]]; discriminate|].
    split; [now right; left|]. intros t [<- |[<- |[]]]; cbn; lra. }
  split; [exact HL|].
  apply (C51_galacticus eager 1 _ (Fin 1) (lit "out") (lit "fits.hdf5") halos (Fin 3)); [lia|cbn; lia|exact HL| |].
  - apply Forall2_cons; [|apply Forall2_cons; [|constructor]].
    + exists (Fin 1), (Fin 2), false. refine (conj eq_refl (conj eq_refl (conj _ _))).
      * cbn [xsub xadd xneg]. rewrite xlt_Fin. split; [discriminate|intros X; exfalso; lra].
      * left. split; [apply xlt_Fin; lra|]. eexists. split; [|reflexivity]. reflexivity.
    + exists (Fin 1), (Fin 3), false. refine (conj eq_refl (conj eq_refl (conj _ _))).
      * cbn [xsub xadd xneg]. rewrite xlt_Fin. split; [discriminate|intros X; exfalso; lra].
      * right. split; [rewrite xlt_Fin; lra|]. reflexivity.
  - intros (mid & E & _). discriminate.
Qed.

(** Last Journey: all chunks of all chosen subvolumes, one table each. *)
Definition fits_of {n : nat} (fitter : list xr -> list xr -> res FitResult) (loaded : res (list xr * list (list xr)))
  (frs : list FitResult) : Prop :=
  exists tarr mahs, loaded = Ok (tarr, mahs) /\ (2 * n <= List.length mahs)%nat /\
    Forall2 (fun mah fr => fitter tarr mah = Ok fr) mahs frs.

Theorem C51_lastjourney : forall eager nranks fitter load outdir nchunks subvols frs f, (0 < nranks)%nat ->
  (forall s c, In s subvols -> (0 <= c < nchunks)%Z -> @fits_of nranks fitter (load s c) (frs s c)) ->
  every_run eager nranks (start (lastjourney_main fitter load outdir nchunks subvols nranks) f) (fun st =>
    all_return nranks st (fun _ => tt) /\ no_messages st /\
    chunks_done (List.length (str_of_int nchunks)) outdir (fun s c => In s subvols /\ (0 <= c < nchunks)%Z) frs f (fs st)).
Proof. intros. now apply lastjourney_finished. Qed.
Print Assumptions C51_lastjourney.

Example C51_lastjourney_example : forall eager f,
  every_run eager 2 (start (lastjourney_main (fun _ _ => Ok ex_skipped) (fun _ _ => Ok ([Fin 1], [[Fin 1]; [Fin 2]; [Fin 3]; [Fin 4]])) (lit "out") 20 [3; 5]%Z 2) f)
    (fun st => exists h, fs st (lit "out", lit "subvol_5_chunk_07.hdf5") = Some (H5 h) /\
       fit_columns [ex_skipped; ex_skipped; ex_skipped; ex_skipped] h).
Proof.
  intros eager f.
  destruct (C51_lastjourney eager 2 (fun _ _ => Ok ex_skipped) (fun _ _ => Ok ([Fin 1], [[Fin 1]; [Fin 2]; [Fin 3]; [Fin 4]])) (lit "out") 20 [3; 5]%Z
    (fun _ _ => [ex_skipped; ex_skipped; ex_skipped; ex_skipped]) f) as [B R].
  - lia.
  - intros s c _ _. exists [Fin 1], [[Fin 1]; [Fin 2]; [Fin 3]; [Fin 4]]. split; [reflexivity|]. split; [cbn; lia|repeat constructor].
  - split; [exact B|]. intros k st S N. destruct (R k st S N) as (_ & _ & D & _). apply (D 5%Z 7%Z). split; [right; now left|lia].
Qed.

(** A chunk with fewer than two halos per rank stops the run there: the earlier
    chunks are done, the fits of this one are only in its temporary files, and no
    rank ever returns. *)
Theorem C51_lastjourney_few_halos : forall eager nranks fitter load outdir nchunks before s later c frs frs' f, (0 < nranks)%nat ->
  (0 <= c < nchunks)%Z ->
  (forall s' c', earlier nchunks before s c s' c' -> @fits_of nranks fitter (load s' c') (frs s' c')) ->
  (exists tarr mahs, load s c = Ok (tarr, mahs) /\ (List.length mahs < 2 * nranks)%nat /\
     Forall2 (fun mah fr => fitter tarr mah = Ok fr) mahs frs') ->
  every_run eager nranks (start (lastjourney_main fitter load outdir nchunks (before ++ s :: later) nranks) f) (fun st =>
    (exists g, chunks_done (List.length (str_of_int nchunks)) outdir (earlier nchunks before s c) frs f g /\
       not_collated nranks outdir (chunk_tmp (List.length (str_of_int nchunks)) s c) HEADER (fun fr => get_outline fr None) g frs' st) /\
    forall i r, (i < nranks)%nat -> procs st i <> Exit (Ok r)).
Proof. intros. now apply lastjourney_few. Qed.
Print Assumptions C51_lastjourney_few_halos.

Theorem C51_lastjourney_failing_fit : forall eager nranks fitter load outdir nchunks before s later c frs mah e f, (0 < nranks)%nat ->
  (0 <= c < nchunks)%Z ->
  (forall s' c', earlier nchunks before s c s' c' -> @fits_of nranks fitter (load s' c') (frs s' c')) ->
  (exists tarr mahs, load s c = Ok (tarr, mahs) /\ In mah mahs /\ fitter tarr mah = Err e) ->
  every_run eager nranks (start (lastjourney_main fitter load outdir nchunks (before ++ s :: later) nranks) f) (fun st =>
    exists g, chunks_done (List.length (str_of_int nchunks)) outdir (earlier nchunks before s c) frs f g /\
      failed nranks outdir (chunk_tmp (List.length (str_of_int nchunks)) s c) g st).
Proof. intros eager nranks fitter load outdir nchunks before s later c frs mah e f Hn Hc HG HF. now apply (lastjourney_failed eager nranks Hn fitter load outdir nchunks frs before s later c f mah e). Qed.
Print Assumptions C51_lastjourney_failing_fit.

(** Which subvolumes: all of them if -iend is their number, but with the default
    -iend of -1 the last one is left out. *)
Theorem C51_lastjourney_subvolumes : forall num s, (0 < num)%Z ->
  (In s (lastjourney_subvolumes num 0 num) <-> (0 <= s < num)%Z) /\
  (In s (lastjourney_subvolumes num 0 (-1)) <-> (0 <= s < num - 1)%Z).
Proof.
  intros num s H. rewrite subvolumes_all, subvolumes_default by lia. split; apply zrange_nonneg.
Qed.
Print Assumptions C51_lastjourney_subvolumes.

(** So a default run never writes the tables of the last subvolume. *)
Theorem C51_lastjourney_default_refuted : exists nranks fitter load outdir num nchunks frs, (0 < nranks)%nat /\
  (forall s c, (0 <= s < num)%Z -> (0 <= c < nchunks)%Z -> @fits_of nranks fitter (load s c) (frs s c)) /\
  exists s c, (0 <= s < num)%Z /\ (0 <= c < nchunks)%Z /\
  forall eager, every_run eager nranks
    (start (lastjourney_main fitter load outdir nchunks (lastjourney_subvolumes num 0 (-1)) nranks) (fun _ => None)) (fun st =>
    all_return nranks st (fun _ => tt) /\
    fs st (outdir, chunk_name (List.length (str_of_int nchunks)) s c ++ lit ".hdf5") = None).
Proof.
  exists 1%nat, (fun _ _ => Ok ex_skipped), (fun _ _ => Ok ([], [[]; []])), (lit "out"), 2%Z, 20%Z, (fun _ _ => [ex_skipped; ex_skipped]).
  assert (HG : forall s c : Z, @fits_of 1 (fun _ _ => Ok ex_skipped) ((fun _ _ : Z => Ok ([], [[]; []])) s c) [ex_skipped; ex_skipped]).
  { intros s c. exists [], [[]; []]. split; [reflexivity|]. split; [cbn; lia|repeat constructor]. }
  split; [lia|]. split; [intros s c _ _; apply (HG s c)|]. exists 1%Z, 0%Z. split; [lia|]. split; [lia|]. intros eager.
  destruct (lastjourney_finished eager 1 ltac:(lia) (fun _ _ => Ok ex_skipped) (fun _ _ => Ok ([], [[]; []])) (lit "out") 20%Z
    (fun _ _ => [ex_skipped; ex_skipped]) (lastjourney_subvolumes 2 0 (-1)) (fun _ => None)) as [B R].
  { intros s c _ _. apply (HG s c). }
  split; [exact B|]. intros k s' S N. destruct (R k s' S N) as (R1 & _ & _ & _ & R3). split; [exact R1|].
  apply R3. intros s c [Hs Hc]. rewrite subvolumes_default in Hs by lia. apply zrange_nonneg in Hs. split.
  - intros E. apply (f_equal snd) in E. cbn [snd] in E. apply chunk_name_inj in E as [E _]; [lia|apply no_underscore_hdf5|lia|lia].
  - intros [_ H]. now apply hdf5_not_temp in H.
Qed.
Print Assumptions C51_lastjourney_default_refuted.

(** Discovery: the script asks the package for names that it does not have.  Every
    rank stops with AttributeError before fitting anything. *)
Theorem C51_discovery_refuted : forall eager nranks fitter load outdir nchunks s later tarr mahs f, (0 < nranks)%nat ->
  (0 < nchunks)%Z -> load s 0%Z = Ok (tarr, mahs) ->
  let tmp := chunk_tmp (List.length (str_of_int nchunks)) s 0%Z in
  every_run eager nranks (start (discovery_main fitter load outdir nchunks (s :: later) nranks) f) (fun st =>
    (forall i, (i < nranks)%nat -> procs st i = Exit (Err AttributeError)) /\
    (forall i, (i < nranks)%nat -> fs st (outdir, tmp i) = Some (Text [])) /\
    (forall q, (forall i, (i < nranks)%nat -> q <> (outdir, tmp i)) -> fs st q = f q)).
Proof. intros. now apply (discovery_stops eager nranks H fitter load outdir nchunks s later tarr mahs). Qed.
Print Assumptions C51_discovery_refuted.

(** ** C52: merging the chunks of Last Journey *)

(** Any number of runs over any subvolumes, each killed at any point.  A subvolume
    whose 20 tables were there has either all of them unchanged, or one table with
    all their rows; a subvolume without them has what it had.  Nothing else changes. *)
Theorem C52_no_fit_lost : forall indir outdir f0 f, runs_of_unchunk indir outdir f0 f ->
  (forall s hs, hold f0 (chunk_files indir s) hs ->
     hold f (chunk_files indir s) hs \/
     exists h, f (merged_file outdir s) = Some (H5 h) /\ merged hs h) /\
  (forall s, (forall hs, ~ hold f0 (chunk_files indir s) hs) -> forall p, In p (chunk_files indir s) -> f p = f0 p) /\
  (forall q, (forall s, ~ In q (chunk_files indir s) /\ q <> merged_file outdir s) -> f q = f0 q).
Proof.
  intros indir outdir f0 f H. destruct (runs_J indir outdir f0 f H) as (J1 & J2 & J3).
  refine (conj _ (conj _ J3)).
  - intros s hs HH. destruct (J2 s) as [HI|(hs' & h & H1 & H2 & H3)].
    + left. apply (hold_same indir f f0 s hs); [|exact HH]. intros p Hp. symmetry. now apply HI.
    + right. exists h. split; [exact H2|]. now rewrite (hold_unique _ _ _ _ HH H1).
  - intros s HN. destruct (J2 s) as [HI|(hs & h & H1 & _)]; [exact HI|]. now apply HN in H1.
Qed.
Print Assumptions C52_no_fit_lost.

(** A run that is not killed.  If every chosen subvolume is ready, it returns, every
    one of them is merged and its files are removed.  Otherwise it raises, and no
    file has been removed or overwritten but merged tables. *)
Theorem C52_run : forall eager indir outdir istart iend f,
  every_run eager 1 (start (fun _ => unchunk_main indir outdir istart iend) f) (fun st =>
    ((forall s, (istart <= s < iend)%Z -> ready indir f s) ->
       procs st 0%nat = Exit (Ok tt) /\
       (forall s hs, (istart <= s < iend)%Z -> hold f (chunk_files indir s) hs ->
          (exists h, fs st (merged_file outdir s) = Some (H5 h) /\ merged hs h) /\
          forall p, In p (chunk_files indir s) -> fs st p = None) /\
       (forall q, (forall s, (istart <= s < iend)%Z -> q <> merged_file outdir s /\ ~ In q (chunk_files indir s)) -> fs st q = f q)) /\
    (forall s, (istart <= s < iend)%Z -> ~ ready indir f s ->
       (exists e, procs st 0%nat = Exit (Err e)) /\
       (forall q, (forall s, (istart <= s < iend)%Z -> q <> merged_file outdir s) -> fs st q = f q))).
Proof.
  intros eager indir outdir istart iend f.
  destruct (always_runs _ _ eager _ f (always_main indir outdir f istart iend f (J_start indir outdir f))) as [B R].
  split; [exact B|]. intros k st S N. destruct (R k st S N) as (r & Er & HR). split.
  - intros HA. destruct r as [[]|e]; cbn [outcome] in HR.
    + destruct HR as [H1 H2]. refine (conj Er (conj _ H2)). intros s hs Hs HH.
      destruct (H1 s Hs) as [(hs' & h & X1 & X2 & X3) X4]. split; [|exact X4]. exists h. split; [exact X2|].
      now rewrite (hold_unique _ _ _ _ HH X1).
    + destruct HR as [(s & Hs & NR) _]. exfalso. now apply NR, HA.
  - intros s Hs HN. destruct r as [[]|e]; cbn [outcome] in HR.
    + destruct HR as [H1 _]. destruct (H1 s Hs) as [(hs' & h & X1 & X2 & X3) _]. exfalso. apply HN. destruct X3 as [(first & rest & -> & EK) HC]. exists first, rest. split; [exact X1|].
      intros x key Hx Hk. rewrite <- EK in Hk. apply in_map_iff in Hk as ([k' c] & Ek & Hin). cbn [fst] in Ek. subst k'.
      destruct (HC key c Hin) as (cols & HF & _).
      assert (G : forall hs cols, Forall2 (fun x col => column_of x key col) hs cols -> In x hs -> exists col, column_of x key col).
      { clear. induction 1 as [|y col hs cols E _ IH]; [intros []|]. intros [->|Hx]; [now exists col|now apply IH]. }
      destruct (G _ _ HF (or_intror Hx)) as (col & l1 & l2 & -> & _). rewrite map_app. apply in_or_app. right. now left.
    + destruct HR as [_ H2]. split; [now exists e|exact H2].
Qed.
Print Assumptions C52_run.

(** Fitting Last Journey and then merging: one row per halo, in order, chunk after
    chunk, in the table of each subvolume. *)
Theorem C52_fit_then_merge : forall eager eager' nranks fitter load drn outdir subvols istart iend frs f k st, (0 < nranks)%nat ->
  (forall s c, In s subvols -> (0 <= c < 20)%Z -> @fits_of nranks fitter (load s c) (frs s c)) ->
  (forall s, (istart <= s < iend)%Z -> In s subvols) ->
  steps eager nranks k (start (lastjourney_main fitter load drn 20 subvols nranks) f) st ->
  (forall st', ~ step eager nranks st st') ->
  every_run eager' 1 (start (fun _ => unchunk_main drn outdir istart iend) (fs st)) (fun st' =>
    procs st' 0%nat = Exit (Ok tt) /\
    forall s, (istart <= s < iend)%Z ->
      (exists h, fs st' (merged_file outdir s) = Some (H5 h) /\
         fit_columns (List.concat (map (fun c => frs s (Z.of_nat c)) (seq 0 20))) h) /\
      forall p, In p (chunk_files drn s) -> fs st' p = None).
Proof.
  intros eager eager' nranks fitter load drn outdir subvols istart iend frs f k st Hn HG HS S N.
  destruct (lastjourney_finished eager nranks Hn fitter load drn 20%Z frs subvols f HG) as [_ R].
  destruct (R k st S N) as (_ & _ & D1 & _ & _). change (List.length (str_of_int 20)) with 2%nat in D1.
  assert (HH : forall s, (istart <= s < iend)%Z -> exists hs, hold (fs st) (chunk_files drn s) hs /\
    Forall2 fit_columns (map (fun c => frs s (Z.of_nat c)) (seq 0 20)) hs).
  { intros s Hs. unfold hold, chunk_files.
    assert (G : forall l, (forall c, In c l -> (c < 20)%nat) -> exists hs,
      Forall2 (fun p h => fs st p = Some (H5 h)) (map (fun c => (drn, chunk_name 2 s (Z.of_nat c) ++ lit ".hdf5")) l) hs /\
      Forall2 fit_columns (map (fun c => frs s (Z.of_nat c)) l) hs).
    { induction l as [|c l IH]; intros Hl; [exists []; split; constructor|].
      destruct IH as (hs & I1 & I2); [intros c' Hc'; apply Hl; now right|].
      destruct (D1 s (Z.of_nat c)) as (h & E & HC); [split; [now apply HS|specialize (Hl c (or_introl eq_refl)); lia]|].
      exists (h :: hs). split; cbn [map]; constructor; auto. }
    apply G. intros c Hc. apply in_seq in Hc. lia. }
  assert (HR : forall s, (istart <= s < iend)%Z -> ready drn (fs st) s).
  { intros s Hs. destruct (HH s Hs) as (hs & H1 & H2). destruct hs as [|first rest]; [inversion H1|].
    exists first, rest. split; [exact H1|]. intros x key Hx Hk.
    assert (K : forall t, In t (first :: rest) -> map fst t = [lit "logm0"; lit "logtc"; lit "early_index"; lit "late_index"; lit "t_peak"; lit "loss"; lit "n_points_per_fit"; lit "fit_algo"]).
    { intros t Ht. revert H2 Ht. generalize (map (fun c => frs s (Z.of_nat c)) (seq 0 20)), (first :: rest). intros xs ts X.
      induction X as [|? ? ? ? (l0 & l1 & l2 & l3 & l4 & l5 & ns & -> & _) _ IH]; [intros []|]. intros [<-|Ht]; [reflexivity|now apply IH]. }
    rewrite (K x) by (now right). rewrite (K first) in Hk by (now left). exact Hk. }
  destruct (C52_run eager' drn outdir istart iend (fs st)) as [B Q]. split; [exact B|].
  intros k' st' S' N'. destruct (Q k' st' S' N') as [Q1 _]. destruct (Q1 HR) as (E & M & _). split; [exact E|].
  intros s Hs. destruct (HH s Hs) as (hs & H1 & H2). destruct (M s hs Hs H1) as [(h & M1 & M2) M3]. split; [|exact M3].
  exists h. split; [exact M1|]. apply (merged_fits _ hs); [discriminate|exact H2|exact M2].
Qed.
Print Assumptions C52_fit_then_merge.

(** Columns that the first table lacks are lost: after a run that returns, no file
    holds them any more. *)
Theorem C52_extra_columns_refuted : exists f s hs key values, hold f (chunk_files (lit "in") s) hs /\
  (exists x, In x hs /\ In (key, values) x) /\
  forall eager, every_run eager 1 (start (fun _ => unchunk_main (lit "in") (lit "out") s (s + 1)) f) (fun st =>
    procs st 0%nat = Exit (Ok tt) /\
    forall p h, fs st p = Some (H5 h) -> ~ In key (map fst h)).
Proof.
  set (h0 := [(lit "logm0", FloatCol [Fin 1])] : hdf).
  set (h1 := [(lit "logm0", FloatCol [Fin 2]); (lit "extra", FloatCol [Fin 3])] : hdf).
  set (hs := h0 :: repeat h1 19).
  set (f := fun p => if eqb_path p (lit "in", chunk_name 2 0 0 ++ lit ".hdf5") then Some (H5 h0)
                     else if existsb (eqb_path p) (chunk_files (lit "in") 0) then Some (H5 h1) else None).
  assert (HH : hold f (chunk_files (lit "in") 0) hs).
  { unfold hold, hs. cbn [chunk_files seq map repeat]. repeat (apply Forall2_cons; [reflexivity|]). constructor. }
  exists f, 0%Z, hs, (lit "extra"), (FloatCol [Fin 3]). split; [exact HH|]. split.
  { exists h1. split; [right; now left|right; now left]. }
  intros eager. destruct (C52_run eager (lit "in") (lit "out") 0 (0 + 1) f) as [B R]. split; [exact B|].
  intros k st S N. destruct (R k st S N) as [R1 _]. destruct R1 as (E & M & U).
  { intros s Hs. assert (s = 0)%Z by lia. subst s. exists h0, (repeat h1 19). split; [exact HH|].
    intros x key Hx Hk. apply repeat_spec in Hx. subst x. destruct Hk as [<-|[]]. now left. }
  split; [exact E|]. destruct (M 0%Z hs ltac:(lia) HH) as [(h & M1 & [(first & rest & EH & EK) _]) M2].
  intros p x Ep Hin.
  destruct (path_eq_dec p (merged_file (lit "out") 0)) as [->|Np].
  - rewrite M1 in Ep. injection Ep as <-. rewrite EK in Hin. unfold hs in EH. injection EH as <- _. destruct Hin as [X|[]]; discriminate.
  - destruct (in_dec path_eq_dec p (chunk_files (lit "in") 0)) as [Hp|Hp]; [rewrite M2 in Ep by exact Hp; discriminate|].
    rewrite U in Ep.
    + unfold f in Ep. destruct (eqb_path p (lit "in", chunk_name 2 0 0 ++ lit ".hdf5")) eqn:E1.
      * apply eqb_path_eq in E1. apply Hp. rewrite E1. now left.
      * destruct (existsb (eqb_path p) (chunk_files (lit "in") 0)) eqn:E2; [|discriminate].
        apply existsb_exists in E2 as (q & Hq & Eq). apply eqb_path_eq in Eq. subst q. contradiction.
    + intros s Hs. assert (s = 0)%Z by lia. subst s. now split.
Qed.
Print Assumptions C52_extra_columns_refuted.

(** A run killed while it writes the merged table: the files are still there. *)
Example C52_example : exists f0 f hs, hold f0 (chunk_files (lit "in") 0) hs /\ runs_of_unchunk (lit "in") (lit "in") f0 f /\
  f (merged_file (lit "in") 0) = Some (H5 []) /\ hold f (chunk_files (lit "in") 0) hs.
Proof.
  set (h := [(lit "logm0", FloatCol [Fin 1])] : hdf).
  set (f0 := fun p => if existsb (eqb_path p) (chunk_files (lit "in") 0) then Some (H5 h) else None).
  assert (HH : hold f0 (chunk_files (lit "in") 0) (repeat h 20)).
  { unfold hold. cbn [chunk_files seq map repeat]. repeat (apply Forall2_cons; [reflexivity|]). constructor. }
  assert (S : exists st, steps (fun _ _ _ => true) 1 21 (start (fun _ => unchunk_main (lit "in") (lit "in") 0 1) f0) st /\
    fs st = fset f0 (merged_file (lit "in") 0) (Some (H5 []))).
  { unfold unchunk_main. cbv zeta. change (List.length (str_of_int 20)) with 2%nat. change (zrange 0 1) with [0%Z].
    cbn [unchunk_loop]. rewrite chunk_files_model.
    assert (L : forall ps coll (K : list hdf -> prog unit) m (c : chans) (q : nat -> prog unit), (forall p, In p ps -> f0 p = Some (H5 h)) ->
      (forall (c : chans) (q : nat -> prog unit), q 0%nat = K (coll ++ repeat h (List.length ps)) -> exists st, steps (fun _ _ _ => true) 1 m (mkState q c f0) st /\ fs st = fset f0 (merged_file (lit "in") 0) (Some (H5 []))) ->
      q 0%nat = load_chunks ps coll K ->
      exists st, steps (fun _ _ _ => true) 1 (List.length ps + m) (mkState q c f0) st /\ fs st = fset f0 (merged_file (lit "in") 0) (Some (H5 []))).
    { induction ps as [|p ps IH]; intros coll K m c q Hp HK Hq; cbn [load_chunks List.length repeat] in *.
      - apply HK. now rewrite app_nil_r.
      - destruct (IH (coll ++ [h]) K m c (pset q 0 (load_chunks ps (coll ++ [h]) K : prog unit))) as (st & S1 & S2).
        + intros p' Hp'. apply Hp. now right.
        + intros c' q' Hq'. apply HK. rewrite Hq', <- app_assoc. reflexivity.
        + apply pset_same.
        + exists st. split; [|exact S2]. cbn [Nat.add]. eapply steps_S; [|exact S1].
          apply (step_disk _ _ (mkState q c f0) 0 _ f0); [lia|]. cbn [procs fs]. rewrite Hq. cbn [disk_step]. now rewrite (Hp p (or_introl eq_refl)). }
    eapply (L (chunk_files (lit "in") 0) [] _ 1%nat); [| |reflexivity].
    - intros p Hp. unfold f0. destruct (existsb (eqb_path p) (chunk_files (lit "in") 0)) eqn:E; [reflexivity|].
      exfalso. assert (X : existsb (eqb_path p) (chunk_files (lit "in") 0) = true) by (apply existsb_exists; exists p; split; [exact Hp|apply eqb_path_refl]). congruence.
    - intros c q Hq. eexists. split.
      + eapply steps_S; [|constructor]. apply (step_disk _ _ (mkState q c f0) 0); [lia|]. cbn [procs fs]. rewrite Hq. cbn [app]. reflexivity.
      + reflexivity. }
  destruct S as (st & S1 & S2). exists f0, (fs st), (repeat h 20). split; [exact HH|]. split.
  { apply (one_more (lit "in") (lit "in") f0 f0 0 1 21 _ st (no_run _ _ _) S1). }
  rewrite S2. split; [apply fset_same|].
  apply (hold_same (lit "in") (fset f0 (merged_file (lit "in") 0) (Some (H5 []))) f0 0 (repeat h 20)); [|exact HH].
  intros p Hp. symmetry. apply fset_other. now apply (chunk_not_merged (lit "in") (lit "in") 0).
Qed.

(** ** C66: a run that stops anywhere loses no fit *)

(** Let a text file of a rank hold [x] at some point of a run.  At every later point
    the file still begins with [x], or the table has the fits of all lines begun in
    [x].  The fits may fail, the ranks may be killed: nothing is assumed of either. *)
Theorem C66_tng : forall eager nranks fitter outdir mahs f k s k' s' rank x, (0 < nranks)%nat ->
  (forall i, (i < nranks)%nat -> f (outdir, tmp_name i) = None) ->
  steps eager nranks k (start (tng_main fitter outdir mahs nranks) f) s -> steps eager nranks k' s s' ->
  (rank < nranks)%nat -> fs s (outdir, tmp_name rank) = Some (Text x) ->
  not_lost (fs s' (outdir, tmp_name rank)) (fs s' (outdir, lit "diffmah_tng_fits.hdf5"))
    HEADER (fun fr => get_outline fr None) fit_columns x.
Proof.
  intros eager n fitter outdir mahs f k s k' s' i x Hn H0 S1 S2 Hi E.
  apply (not_lost_ext _ _ _ (fun fr => row_text (out_fields fr))); [intros fr; symmetry; apply outline_row|].
  apply (one_kept n outdir (lit "diffmah_tng_fits.hdf5") none_extra HEADER out_fields fit_columns (fun _ F => F) 2 eager
    (tng_main fitter outdir mahs n) f k s k' s' i x); try assumption. intros j Hj. now apply tng_sat.
Qed.
Print Assumptions C66_tng.

Theorem C66_bolshoi : forall eager nranks fitter outdir ids mahs times f k s k' s' rank x, (0 < nranks)%nat ->
  (forall i, (i < nranks)%nat -> f (outdir, tmp_name i) = None) ->
  steps eager nranks k (start (bpl_main fitter outdir ids mahs times nranks) f) s -> steps eager nranks k' s s' ->
  (rank < nranks)%nat -> fs s (outdir, tmp_name rank) = Some (Text x) ->
  not_lost (fs s' (outdir, tmp_name rank)) (fs s' (outdir, lit "diffmah_fits.hdf5"))
    HEADER_HALO_ID (fun p => get_outline (snd p) (Some (fst p)))
    (fun ps => fit_columns_with_ids (map fst ps) (map snd ps)) x.
Proof.
  intros eager n fitter outdir ids mahs times f k s k' s' i x Hn H0 S1 S2 Hi E.
  apply (not_lost_ext _ _ _ (fun p => row_text (str_of_int (fst p) :: out_fields (snd p)))); [intros p; symmetry; apply outline_row_id|].
  apply (one_kept n outdir (lit "diffmah_fits.hdf5") (bpl_extra outdir) HEADER_HALO_ID (fun p => str_of_int (fst p) :: out_fields (snd p))
    (fun ps => fit_columns_with_ids (map fst ps) (map snd ps)) (bpl_extra_tmp outdir) 0 eager
    (bpl_main fitter outdir ids mahs times n) f k s k' s' i x); try assumption. intros j Hj. now apply bpl_sat.
Qed.
Print Assumptions C66_bolshoi.

Theorem C66_galacticus : forall eager nranks fitter dt outdir out halos f k s k' s' rank x, (0 < nranks)%nat ->
  ~ temp_file (lit "tmp_mah_fits_rank_") out ->
  (forall i, (i < nranks)%nat -> f (outdir, tmp_name i) = None) ->
  steps eager nranks k (start (galacticus_main fitter dt outdir out halos nranks) f) s -> steps eager nranks k' s s' ->
  (rank < nranks)%nat -> fs s (outdir, tmp_name rank) = Some (Text x) ->
  not_lost (fs s' (outdir, tmp_name rank)) (fs s' (outdir, out)) HEADER (fun fr => get_outline fr None) fit_columns x.
Proof.
  intros eager n fitter dt outdir out halos f k s k' s' i x Hn Ho H0 S1 S2 Hi E.
  apply (not_lost_ext _ _ _ (fun fr => row_text (out_fields fr))); [intros fr; symmetry; apply outline_row|].
  apply (one_kept n outdir out none_extra HEADER out_fields fit_columns (fun _ F => F) 3 eager
    (galacticus_main fitter dt outdir out halos n) f k s k' s' i x); try assumption. intros j Hj. now apply galacticus_sat.
Qed.
Print Assumptions C66_galacticus.

(** Last Journey: for every chunk of every subvolume of the run. *)
Theorem C66_lastjourney : forall eager nranks fitter load outdir nchunks subvols f k st k' st' s c rank x, (0 < nranks)%nat ->
  NoDup subvols ->
  (forall s c i, In s subvols -> (0 <= c < nchunks)%Z -> (i < nranks)%nat ->
     f (outdir, chunk_tmp (List.length (str_of_int nchunks)) s c i) = None) ->
  steps eager nranks k (start (lastjourney_main fitter load outdir nchunks subvols nranks) f) st -> steps eager nranks k' st st' ->
  (0 <= c)%Z -> (rank < nranks)%nat ->
  fs st (outdir, chunk_tmp (List.length (str_of_int nchunks)) s c rank) = Some (Text x) ->
  not_lost (fs st' (outdir, chunk_tmp (List.length (str_of_int nchunks)) s c rank))
    (fs st' (outdir, chunk_name (List.length (str_of_int nchunks)) s c ++ lit ".hdf5"))
    HEADER (fun fr => get_outline fr None) fit_columns x.
Proof.
  intros eager n fitter load outdir nchunks subvols f k st k' st' s c i x Hn ND H0 S1 S2 Hc Hi E.
  apply (not_lost_ext _ _ _ (fun fr => row_text (out_fields fr))); [intros fr; symmetry; apply outline_row|].
  now apply (lj_kept eager n Hn fitter load outdir nchunks subvols ND f H0 k st k' st').
Qed.
Print Assumptions C66_lastjourney.

(** At no point of a run has any file changed but the text files and the tables. *)
Theorem C66_tng_other_files : forall eager nranks fitter outdir mahs f k s d b, (0 < nranks)%nat ->
  (forall i, (i < nranks)%nat -> f (outdir, tmp_name i) = None) ->
  steps eager nranks k (start (tng_main fitter outdir mahs nranks) f) s ->
  (d, b) <> (outdir, lit "diffmah_tng_fits.hdf5") -> ~ (d = outdir /\ temp_file (lit "tmp_mah_fits_rank_") b) ->
  fs s (d, b) = f (d, b).
Proof.
  intros eager n fitter outdir mahs f k s d b Hn H0 S1 A1 A2.
  apply (one_alien n outdir (lit "diffmah_tng_fits.hdf5") none_extra HEADER out_fields fit_columns (fun _ F => F) 2 eager
    (tng_main fitter outdir mahs n) f k s d b); try assumption; [|now intros []]. intros j Hj. now apply tng_sat.
Qed.
Print Assumptions C66_tng_other_files.

Theorem C66_bolshoi_other_files : forall eager nranks fitter outdir ids mahs times f k s d b, (0 < nranks)%nat ->
  (forall i, (i < nranks)%nat -> f (outdir, tmp_name i) = None) ->
  steps eager nranks k (start (bpl_main fitter outdir ids mahs times nranks) f) s ->
  (d, b) <> (outdir, lit "bpl_mpeak_histories.hdf5") ->
  (d, b) <> (outdir, lit "diffmah_fits.hdf5") -> ~ (d = outdir /\ temp_file (lit "tmp_mah_fits_rank_") b) ->
  fs s (d, b) = f (d, b).
Proof.
  intros eager n fitter outdir ids mahs times f k s d b Hn H0 S1 A0 A1 A2.
  apply (one_alien n outdir (lit "diffmah_fits.hdf5") (bpl_extra outdir) HEADER_HALO_ID (fun p => str_of_int (fst p) :: out_fields (snd p))
    (fun ps => fit_columns_with_ids (map fst ps) (map snd ps)) (bpl_extra_tmp outdir) 0 eager
    (bpl_main fitter outdir ids mahs times n) f k s d b); try assumption. intros j Hj. now apply bpl_sat.
Qed.
Print Assumptions C66_bolshoi_other_files.

Theorem C66_galacticus_other_files : forall eager nranks fitter dt outdir out halos f k s d b, (0 < nranks)%nat ->
  ~ temp_file (lit "tmp_mah_fits_rank_") out ->
  (forall i, (i < nranks)%nat -> f (outdir, tmp_name i) = None) ->
  steps eager nranks k (start (galacticus_main fitter dt outdir out halos nranks) f) s ->
  (d, b) <> (outdir, out) -> ~ (d = outdir /\ temp_file (lit "tmp_mah_fits_rank_") b) ->
  fs s (d, b) = f (d, b).
Proof.
  intros eager n fitter dt outdir out halos f k s d b Hn Ho H0 S1 A1 A2.
  apply (one_alien n outdir out none_extra HEADER out_fields fit_columns (fun _ F => F) 3 eager
    (galacticus_main fitter dt outdir out halos n) f k s d b); try assumption; [|now intros []]. intros j Hj. now apply galacticus_sat.
Qed.
Print Assumptions C66_galacticus_other_files.

Theorem C66_lastjourney_other_files : forall eager nranks fitter load outdir nchunks subvols f k st d b, (0 < nranks)%nat ->
  NoDup subvols ->
  (forall s c i, In s subvols -> (0 <= c < nchunks)%Z -> (i < nranks)%nat ->
     f (outdir, chunk_tmp (List.length (str_of_int nchunks)) s c i) = None) ->
  steps eager nranks k (start (lastjourney_main fitter load outdir nchunks subvols nranks) f) st ->
  (forall s c, In s subvols -> (0 <= c < nchunks)%Z ->
     (d, b) <> (outdir, chunk_name (List.length (str_of_int nchunks)) s c ++ lit ".hdf5") /\
     ~ (d = outdir /\ temp_file (chunk_name (List.length (str_of_int nchunks)) s c ++ lit "_tmp_mah_fits_rank_") b)) ->
  fs st (d, b) = f (d, b).
Proof. intros eager n fitter load outdir nchunks subvols f k st d b Hn ND H0. now apply lj_alien. Qed.
Print Assumptions C66_lastjourney_other_files.

(** A second run over the same directory is another matter: the scripts do not look
    for text files left behind and truncate them. *)
Theorem C66_second_run_refuted : exists nranks fitter mahs x, (0 < nranks)%nat /\ forall eager outdir,
  exists k s k' s', steps eager nranks k (start (tng_main fitter outdir mahs nranks) (fun _ => None)) s /\
    fs s (outdir, tmp_name 0) = Some (Text x) /\
    steps eager nranks k' (start (tng_main fitter outdir mahs nranks) (fs s)) s' /\
    ~ not_lost (fs s' (outdir, tmp_name 0)) (fs s' (outdir, lit "diffmah_tng_fits.hdf5"))
        HEADER (fun fr => get_outline fr None) fit_columns x.
Proof.
  exists 1%nat, (fun _ => Ok ex_skipped), [[]; []], (HEADER ++ get_outline ex_skipped None). split; [lia|]. intros eager outdir.
  destruct (tng_first_line eager outdir (fun _ => Ok ex_skipped) ex_skipped (fun _ => None) eq_refl) as (s & S1 & E1 & E0).
  destruct (tng_opened eager outdir (fun _ => Ok ex_skipped) (fs s)) as (s' & S2 & E2 & E3).
  exists 5%nat, s, 3%nat, s'. refine (conj S1 (conj E1 (conj S2 _))). rewrite E2, E3.
  rewrite E0. intros [(y & E)|(bf & it & af & h & y & E & _)]; discriminate.
Qed.
Print Assumptions C66_second_run_refuted.

(** Reachable states with a fit in a text file. *)
Example C66_tng_example : forall eager, exists s,
  steps eager 1 5 (start (tng_main (fun _ => Ok ex_skipped) (lit "out") [[]; []] 1) (fun _ => None)) s /\
  fs s (lit "out", lit "tmp_mah_fits_rank_0.dat") = Some (Text (HEADER ++ get_outline ex_skipped None)).
Proof.
  intros eager. destruct (tng_first_line eager (lit "out") (fun _ => Ok ex_skipped) ex_skipped (fun _ => None) eq_refl) as (s & S1 & E1 & _).
  now exists s.
Qed.
Example C66_lastjourney_example : forall eager, exists s,
  steps eager 1 5 (start (lastjourney_main (fun _ _ => Ok ex_skipped) (fun _ _ => Ok ([Fin 1], [[Fin 1]; [Fin 2]])) (lit "out") 20 [3; 5]%Z 1) (fun _ => None)) s /\
  fs s (lit "out", lit "subvol_3_chunk_00_tmp_mah_fits_rank_0.dat") = Some (Text (HEADER ++ get_outline ex_skipped None)).
Proof.
  intros eager. eexists. split.
  - eapply steps_S; [eapply step_one_barrier; reflexivity|]. eapply steps_S; [eapply step_one_barrier; reflexivity|].
    eapply steps_S; [eapply step_one_disk; reflexivity|]. eapply steps_S; [eapply step_one_disk; cbn [procs fs pset Nat.eqb disk_step]; rewrite fset_same; reflexivity|].
    eapply steps_S; [|apply steps_0]. eapply step_one_disk. cbn [procs fs pset Nat.eqb pset]. match goal with |- context [slice ?a ?b ?l] => change (slice a b l) with [[Fin 1]; [Fin 2]] end.
    cbn [write_lines]. unfold fit_line. cbn [bind lift disk_step].
    rewrite fset_same. reflexivity.
  - cbn [fs]. change (lit "out", lit "subvol_3_chunk_00_tmp_mah_fits_rank_0.dat") with (lit "out", chunk_tmp 2 3 0 0). rewrite fset_same. reflexivity.
Qed.
Example C66_bolshoi_example : forall eager, exists s,
  steps eager 1 7 (start (bpl_main (fun _ => Ok ex_skipped) (lit "out") [7; 8]%Z [[Fin 1]; [Fin 2]] [Fin 3] 1) (fun _ => None)) s /\
  fs s (lit "out", lit "tmp_mah_fits_rank_0.dat") = Some (Text (HEADER_HALO_ID ++ get_outline ex_skipped (Some 7%Z))).
Proof.
  intros eager. eexists. split.
  - eapply steps_S; [eapply step_one_disk; reflexivity|].
    do 3 (eapply steps_S; [eapply step_one_disk; cbn [procs fs pset Nat.eqb put_all disk_step]; rewrite fset_same; reflexivity|]).
    eapply steps_S; [eapply step_one_disk; reflexivity|]. eapply steps_S; [eapply step_one_disk; cbn [procs fs pset Nat.eqb disk_step]; rewrite fset_same; reflexivity|].
    eapply steps_S; [|apply steps_0]. eapply step_one_disk. cbn [procs fs pset Nat.eqb write_lines combine]. unfold fit_line_id. cbn [bind lift disk_step fst snd].
    rewrite fset_same. reflexivity.
  - cbn [fs]. change (lit "out", lit "tmp_mah_fits_rank_0.dat") with (lit "out", tmp_name 0). rewrite fset_same. reflexivity.
Qed.
Example C66_galacticus_example : forall eager, exists s,
  steps eager 1 6 (start (galacticus_main (fun _ _ _ => Ok ex_skipped) (Fin 1) (lit "out") (lit "fits.hdf5")
                            [([Fin 1; Fin 2], [Fin 5; Fin 6]); ([Fin 1; Fin 3], [Fin 7; Fin 6])] 1) (fun _ => None)) s /\
  fs s (lit "out", lit "tmp_mah_fits_rank_0.dat") = Some (Text (HEADER ++ get_outline ex_skipped None)) /\
  ~ temp_file (lit "tmp_mah_fits_rank_") (lit "fits.hdf5").
Proof.
  intros eager. eexists. split.
  - do 3 (eapply steps_S; [eapply step_one_barrier; reflexivity|]).
    eapply steps_S; [eapply step_one_disk; reflexivity|]. eapply steps_S; [eapply step_one_disk; cbn [procs fs pset Nat.eqb disk_step]; rewrite fset_same; reflexivity|].
    eapply steps_S; [|apply steps_0]. eapply step_one_disk. cbn [procs fs pset Nat.eqb].
    match goal with |- context [write_lines _ _ ?l _] => change l with [([Fin 1; Fin 2], [Fin 5; Fin 6]); ([Fin 1; Fin 3], [Fin 7; Fin 6])] end.
    cbn [write_lines].
    match goal with |- context [fit_line ?g ?h] => assert (EG : fit_line g h = Ok (get_outline ex_skipped None)) end.
    { unfold fit_line, galacticus_fit. cbn [last_of rev app bind index nth_error]. destruct (Model_Num.xltb _ _); reflexivity. }
    rewrite EG. cbn [lift disk_step]. rewrite fset_same. reflexivity.
  - cbn [fs]. change (lit "out", lit "tmp_mah_fits_rank_0.dat") with (lit "out", tmp_name 0). rewrite fset_same. split; [reflexivity|].
    apply fits_not_temp. discriminate.
Qed.
