(** The fitting scripts with their -test switch ([is_test]); the galacticus script
    is in Model_SimLoad. *)

From Coq Require Import Reals String List ZArith Bool.
From Verif Require Import Model_Num Model_Base Model_Fitter Model_Outline Model_Utils Model_Data Model_MPI.
Import ListNotations.
Local Open Scope list_scope.

(** ** scripts/fitting_scripts/tng_diffmah_fitter_script.py *)

(** :50-113.  [chunks] is never used. *)
Definition tng_script (fitter : list xr -> res FitResult) (outdir : str) (is_test : bool) (nchunks : Z)
  (mahs : list (list xr)) (nranks rank : nat) : prog unit :=
  let chunks := if is_test then [0; 1; 2]%Z else zrange 0 nchunks in
  tng_main fitter outdir mahs nranks rank.

(** ** scripts/fitting_scripts/bolshoi_planck_fitting_script.py *)

(** :52-131.  Rank 0 also writes the target histories; the 2-d dataset is stored
    flattened. *)
Definition bpl_script (fitter : list xr -> res FitResult) (outdir : str) (is_test : bool) (halo_ids : list Z)
  (mahs : list (list xr)) (bpl_t_table : list xr) (nranks rank : nat) : prog unit :=
  let rest :=
    let nhalos_tot := if is_test then (nranks * 5)%nat else List.length halo_ids in
    lift (array_split (seq 0 nhalos_tot) nranks) (fun splits =>
    lift (index splits rank) (fun indx =>
    lift (take halo_ids indx) (fun halo_ids_for_rank =>
    lift (take mahs indx) (fun mahs_for_rank =>
    write_rank_file (outdir, tmp_name rank) HEADER_HALO_ID (fit_line_id fitter)
      (combine halo_ids_for_rank mahs_for_rank) (
    Barrier (
    if Nat.eqb rank 0
    then collate outdir tmp_name (lit "diffmah_fits.hdf5") nranks (Exit (Ok tt))
    else Exit (Ok tt))))))) in
  if Nat.eqb rank 0
  then let p := (outdir, lit "bpl_mpeak_histories.hdf5") in
       Create p (put_all p [(lit "halo_id", IntCol halo_ids);
                            (lit "mpeak_history", FloatCol (List.concat mahs));
                            (lit "bpl_t_table", FloatCol bpl_t_table)] rest)
  else rest.

(** ** scripts/fitting_scripts/hacc_lastjourney_diffmah_fitter_script.py *)

(** :72-77 and hacc_discovery_sims_diffmah_fitter_script.py:80-85: the subvolumes
    and the chunks; [avail] is all_avail_subvolumes. *)
Definition hacc_jobs (is_test : bool) (avail : list Z) (istart iend nchunks : Z) : res (list Z * list Z) :=
  if is_test
  then let* s := index avail 0 in Ok ([s], [0; 1; 2]%Z)
  else Ok (py_slice istart (Some iend) avail, zrange 0 nchunks).

(** :52-159; [num] is -num_subvols_tot. *)
Definition lastjourney_script (fitter : list xr -> list xr -> res FitResult)
  (load : Z -> Z -> res (list xr * list (list xr))) (outdir : str) (is_test : bool)
  (nchunks num istart iend : Z) (nranks rank : nat) : prog unit :=
  let nchar := List.length (str_of_int nchunks) in
  lift (hacc_jobs is_test (zrange 0 num) istart iend nchunks) (fun '(subvolumes, chunks) =>
  subvol_jobs (fun s c => chunk_job fitter load outdir nchar nranks rank (s, c)) chunks subvolumes
    (Barrier (Exit (Ok tt)))).

(** ** scripts/fitting_scripts/hacc_discovery_sims_diffmah_fitter_script.py *)

(** :59-149; [avail] are the sorted numbers of the files found (:75-78). *)
Definition discovery_script (fitter : list xr -> list xr -> res FitResult)
  (load : Z -> Z -> res (list xr * list (list xr))) (outdir : str) (is_test : bool) (avail : list Z)
  (nchunks istart iend : Z) (nranks rank : nat) : prog unit :=
  let nchar := List.length (str_of_int nchunks) in
  lift (hacc_jobs is_test avail istart iend nchunks) (fun '(subvolumes, chunks) =>
  fold_right (fun s k => chunk_jobs (fun c => discovery_job fitter load outdir nchar nranks rank (s, c)) chunks k)
    (Exit (Ok tt)) subvolumes).
