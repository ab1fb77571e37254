(** Specification vocabulary for the MPI scripts. *)

From Coq Require Import Reals String List ZArith Ascii.
From Verif Require Import Model_Num Model_Base Model_Kernels Model_Adam Model_Fitter Model_Outline
  Model_Utils Model_Data Model_MPI Spec_Kernels Spec_Fitter Spec_Outline.
Import ListNotations.
Local Open Scope list_scope.

(** Whatever the schedule of [n] ranks started in [s]: no run goes on for ever, and
    every run that cannot go on has reached a state with [P]. *)
Definition every_run {A} (eager : nat -> nat -> msg -> bool) (n : nat) (s : state A) (P : state A -> Prop)
  : Prop :=
  (exists bound, forall k s', steps eager n k s s' -> (k <= bound)%nat) /\
  (forall k s', steps eager n k s s' -> (forall s'', ~ step eager n s' s'') -> P s').

(** All [n] ranks ended normally with these results. *)
Definition all_return {A} (n : nat) (s : state A) (result : nat -> A) : Prop :=
  forall i, (i < n)%nat -> procs s i = Exit (Ok (result i)).
Definition no_messages {A} (s : state A) : Prop := forall i j t, chan s i j t = [].

(** The columns of a table of fits: one entry per halo, in order. *)
Definition fit_columns (frs : list FitResult) (h : hdf) : Prop :=
  exists l0 l1 l2 l3 l4 l5 ns,
    h = [(lit "logm0", FloatCol l0); (lit "logtc", FloatCol l1);
         (lit "early_index", FloatCol l2); (lit "late_index", FloatCol l3);
         (lit "t_peak", FloatCol l4); (lit "loss", FloatCol l5);
         (lit "n_points_per_fit", IntCol (map Z.of_nat ns));
         (lit "fit_algo", IntCol (map code_used frs))] /\
    Forall2 (fun fr x => reads_back (logm0 (p_best fr)) x) frs l0 /\
    Forall2 (fun fr x => reads_back (logtc (p_best fr)) x) frs l1 /\
    Forall2 (fun fr x => reads_back (early_index (p_best fr)) x) frs l2 /\
    Forall2 (fun fr x => reads_back (late_index (p_best fr)) x) frs l3 /\
    Forall2 (fun fr x => reads_back (t_peak (p_best fr)) x) frs l4 /\
    Forall2 (fun fr x => reads_back (loss_best fr) x) frs l5 /\
    Forall2 (fun fr n => count_below_last xlt (log_mah_target (loss_data fr)) n) frs ns.
(** The same, after a column of halo ids. *)
Definition fit_columns_with_ids (ids : list Z) (frs : list FitResult) (h : hdf) : Prop :=
  exists h', h = (lit "halo_id", IntCol ids) :: h' /\ fit_columns frs h'.

(** Names of the temporary text files: a fixed beginning, anything, ".dat". *)
Definition temp_file (beginning name : str) : Prop :=
  exists mid, name = beginning ++ mid ++ lit ".dat" /\ ~ In "/"%char mid.

(** The script has done its work: every rank has returned, no message is left, the
    table [out] of directory [d] is written with [P], the temporary files named
    [beginning]*.dat are gone, and no other file has changed. *)
Definition finished (n : nat) (d out beginning : str) (f : tree) (P : hdf -> Prop)
  (s : state unit) : Prop :=
  all_return n s (fun _ => tt) /\ no_messages s /\
  (exists h, fs s (d, out) = Some (H5 h) /\ P h) /\
  (forall b, temp_file beginning b -> fs s (d, b) = None) /\
  (forall d' b, (d', b) <> (d, out) -> ~ (d' = d /\ temp_file beginning b) ->
     fs s (d', b) = f (d', b)).

(** Rank 0 has stopped with an exception although every halo has been fitted; the
    fits are only in the temporary files, and every file but those is unchanged. *)
Definition not_collated {X} (n : nat) (d : str) (tmp : nat -> str) (hdr : str) (line : X -> str)
  (f : tree) (items : list X) (s : state unit) : Prop :=
  (exists e, procs s 0%nat = Exit (Err e)) /\
  (exists parts, List.length parts = n /\ List.concat parts = items /\
     forall i, (i < n)%nat -> fs s (d, tmp i) = Some (Text (hdr ++ List.concat (map line (nth i parts []))))) /\
  (forall q, (forall i, (i < n)%nat -> q <> (d, tmp i)) -> fs s q = f q).

(** Some rank has stopped with an exception, no rank has returned, and every file
    but the temporary ones is unchanged. *)
Definition failed (n : nat) (d : str) (tmp : nat -> str) (f : tree) (s : state unit) : Prop :=
  (exists i e, (i < n)%nat /\ procs s i = Exit (Err e)) /\
  (forall i r, (i < n)%nat -> procs s i <> Exit (Ok r)) /\
  (forall q, (forall i, (i < n)%nat -> q <> (d, tmp i)) -> fs s q = f q).

(** Text [x] once seen in a temporary file is not lost: the file still begins with
    it, or the table has a row for every line begun in it. *)
Definition not_lost {X} (tmp table : option file) (hdr : str) (line : X -> str)
  (columns : list X -> hdf -> Prop) (x : str) : Prop :=
  (exists y, tmp = Some (Text (x ++ y))) \/
  (exists before items after h y, table = Some (H5 h) /\ columns (before ++ items ++ after) h /\
     x ++ y = hdr ++ List.concat (map line items)).

(** The fit of one galacticus halo (times, masses) in a run whose last time is
    [T0]: the running maximum of the masses is fitted; a halo that ends before
    [T0] is continued to [T0] at its last mass; a halo covering less than [dt] is
    only given a placeholder. *)
Definition galacticus_fit_of (fitter : list xr -> list xr -> bool -> res FitResult) (dt T0 : xr)
  (h : list xr * list xr) (fr : FitResult) : Prop :=
  exists t_first t_last skip,
    hd_error (fst h) = Some t_first /\ hd_error (rev (fst h)) = Some t_last /\
    (skip = true <-> xlt (xsub t_last t_first) dt) /\
    ((xlt t_last T0 /\ exists m_last, hd_error (rev (maximum_accumulate (snd h))) = Some m_last /\
      fitter (fst h ++ [T0]) (maximum_accumulate (snd h) ++ [m_last]) skip = Ok fr) \/
     (~ xlt t_last T0 /\ fitter (fst h) (maximum_accumulate (snd h)) skip = Ok fr)).

(** The name of the table of a chunk of a subvolume, without extension: the chunk
    number is padded with zeros to [w] characters. *)
Definition chunk_name (w : nat) (subvol chunk : Z) : str :=
  lit "subvol_" ++ str_of_int subvol ++ lit "_chunk_" ++ pad_int w chunk.

(** [g] is [f] after the fits of some chunks have been tabulated: their tables are
    there, their temporary files are gone, and nothing else has changed. *)
Definition chunks_done (w : nat) (outdir : str) (jobs : Z -> Z -> Prop) (frs : Z -> Z -> list FitResult)
  (f g : tree) : Prop :=
  (forall s c, jobs s c -> exists h, g (outdir, chunk_name w s c ++ lit ".hdf5") = Some (H5 h) /\ fit_columns (frs s c) h) /\
  (forall s c b, jobs s c -> temp_file (chunk_name w s c ++ lit "_tmp_mah_fits_rank_") b -> g (outdir, b) = None) /\
  (forall d b, (forall s c, jobs s c -> (d, b) <> (outdir, chunk_name w s c ++ lit ".hdf5") /\
     ~ (d = outdir /\ temp_file (chunk_name w s c ++ lit "_tmp_mah_fits_rank_") b)) -> g (d, b) = f (d, b)).

(** In a run over the subvolumes [before ++ s :: …], the chunks before chunk [c] of [s]. *)
Definition earlier (nchunks : Z) (before : list Z) (s c s' c' : Z) : Prop :=
  (In s' before /\ (0 <= c' < nchunks)%Z) \/ (s' = s /\ (0 <= c' < c)%Z).

(** ** Unchunking *)

(** The first column of a table under a name. *)
Definition column_of (x : hdf) (key : str) (c : column) : Prop :=
  exists l1 l2, x = l1 ++ (key, c) :: l2 /\ ~ In key (map fst l1).
(** The columns of a list joined end to end; integers stay integers only if all are. *)
Definition joined (cols : list column) (c : column) : Prop :=
  (exists ls, cols = map IntCol ls /\ c = IntCol (List.concat ls)) \/
  (~ (exists ls, cols = map IntCol ls) /\
   c = FloatCol (List.concat (map (fun x => match x with FloatCol l => l | IntCol l => map (fun z => Fin (IZR z)) l end) cols))).
(** [h] holds all rows of the tables [hs], in order, for the columns of the first table. *)
Definition merged (hs : list hdf) (h : hdf) : Prop :=
  (exists first rest, hs = first :: rest /\ map fst h = map fst first) /\
  forall key c, In (key, c) h -> exists cols, Forall2 (fun x col => column_of x key col) hs cols /\ joined cols c.

(** The 20 files of a subvolume, and the file they are merged into. *)
Definition chunk_files (indir : str) (subvol : Z) : list path :=
  map (fun c => (indir, chunk_name 2 subvol (Z.of_nat c) ++ lit ".hdf5")) (seq 0 20).
Definition merged_file (outdir : str) (subvol : Z) : path :=
  (outdir, lit "subvol_" ++ str_of_int subvol ++ lit "_diffmah_fits.hdf5").
Definition hold (f : tree) (ps : list path) (hs : list hdf) : Prop :=
  Forall2 (fun p h => f p = Some (H5 h)) ps hs.

(** The 20 files of a subvolume are there, and every column of the first one is in
    all of them. *)
Definition ready (indir : str) (f : tree) (subvol : Z) : Prop :=
  exists first rest, hold f (chunk_files indir subvol) (first :: rest) /\
    forall x key, In x rest -> In key (map fst first) -> In key (map fst x).

(** Any number of runs of the script one after the other, over any subvolumes, each
    of which may have been killed at any point. *)
Inductive runs_of_unchunk (indir outdir : str) (f0 : tree) : tree -> Prop :=
| no_run : runs_of_unchunk indir outdir f0 f0
| one_more : forall f istart iend k eager s,
    runs_of_unchunk indir outdir f0 f ->
    steps eager 1 k (start (fun _ => unchunk_main indir outdir istart iend) f) s ->
    runs_of_unchunk indir outdir f0 (fs s).
