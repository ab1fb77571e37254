(** Reading simulations: data_loaders/load_galacticus_eps_mahs.py with the script
    that uses it, and the simulation table of data_loaders/load_hacc_mahs.py. *)

From Coq Require Import Reals String List ZArith Bool.
From Verif Require Import Model_Num Model_Base Model_Fitter Model_Outline Model_Utils Model_Data Model_MPI.
Import ListNotations.
Local Open Scope list_scope.

(** ** data_loaders/load_galacticus_eps_mahs.py *)

(** o["name"] of h5py (external): a dataset refuses field names with ValueError. *)
Definition h5_item {V} (o : h5 V) (name : string) : res (h5 V) :=
  match o with
  | Group ms => match lookup name ms with Some o' => Ok o' | None => Err KeyError end
  | _ => Err ValueError
  end.

(** o.size (external) for datasets with one value per row; histories of any
    length are values. *)
Definition h5_size {V} (o : h5 V) : res nat :=
  match o with Group _ => Err AttributeError | Rows l => Ok (List.length l) | Scalar _ => Ok 1%nat end.

(** :11 and :19 *)
Definition node_data {V} (hdf : h5 V) : res (h5 V) :=
  let* o := h5_item hdf "Outputs" in
  let* o := h5_item o "Output1" in
  h5_item o "nodeData".

(** :9-13 *)
Definition get_nhalos_tot {V} (hdf : h5 V) : res nat :=
  let* nodeData := node_data hdf in
  let* o := h5_item nodeData "haloAccretionHistoryMass" in
  h5_size o.

(** :16-30 *)
Definition extract_galacticus_mah_tables {V} (hdf : h5 V) (istart : Z) (iend : option Z)
  : res (list V * list V * list V * list V) :=
  let* nodeData := node_data hdf in
  let* iend :=
    match iend with
    | None =>
        let* o := h5_item nodeData "haloAccretionHistoryMass" in
        let* n := h5_size o in
        Ok (Z.of_nat n)
    | Some e => Ok e
    end in
  let get name := let* o := h5_item nodeData name in h5_slice istart (Some iend) o in
  let* MAHdata := get "haloAccretionHistoryMass"%string in
  let* MAHtimes := get "haloAccretionHistoryTime"%string in
  let* nodeIsIsolated := get "nodeIsIsolated"%string in
  let* basicTimeLastIsolated := get "basicTimeLastIsolated"%string in
  Ok (MAHdata, MAHtimes, nodeIsIsolated, basicTimeLastIsolated).

(** ** scripts/fitting_scripts/galacticus_diffmah_fitter_script.py *)

(** A row of one of the four datasets. *)
Inductive cell : Type := Hist (l : list xr) | Flag (b : bool) | Time (x : xr).
(** Use of a row as an array. *)
Definition as_hist (c : cell) : res (list xr) :=
  match c with Hist l => Ok l | _ => Err TypeError end.
Fixpoint as_hists (l : list cell) : res (list (list xr)) :=
  match l with [] => Ok [] | c :: l' => let* h := as_hist c in let* r := as_hists l' in Ok (h :: r) end.

(** type=bool of argparse (:38): every word but the empty one is true. *)
Definition argparse_bool (s : str) : bool := match s with [] => false | _ => true end.

(** :57-136 on the contents of the input file. *)
Definition galacticus_script (fitter : list xr -> list xr -> bool -> res FitResult) (dt_fit_min : xr)
  (outdir outbn : str) (is_test : bool) (hdf : h5 cell) (nranks rank : nat) : prog unit :=
  lift (get_nhalos_tot hdf) (fun nhalos_tot =>
  lift (array_split (seq 0 nhalos_tot) nranks) (fun splits =>
  lift (index splits rank) (fun indx_for_rank =>
  lift (index indx_for_rank 0) (fun istart =>
  lift (index indx_for_rank (List.length indx_for_rank - 1)) (fun ilast =>
  lift (extract_galacticus_mah_tables hdf (Z.of_nat istart) (Some (Z.of_nat (ilast + 1)))) (fun tables =>
  let '(mahs_for_rank, times_for_rank, _, _) := tables in
  let nhalos_for_rank := List.length mahs_for_rank in
  let nhalos_for_rank := if is_test then Nat.min nhalos_for_rank 50 else nhalos_for_rank in
  Barrier (
  lift (let* times := as_hists times_for_rank in let* ts := lasts times in np_max ts) (fun t_max_for_rank =>
  allreduce op_max rank nranks (MNum t_max_for_rank) (fun m =>
  match m with
  | MNum T0 =>
      Barrier (Barrier (
      write_rank_file (outdir, tmp_name rank) HEADER
        (fit_line (fun ihalo =>
           let* t := index times_for_rank ihalo in
           let* t_sim := as_hist t in
           let* m := index mahs_for_rank ihalo in
           let* mah := as_hist m in
           galacticus_fit fitter dt_fit_min T0 (t_sim, mah))) (seq 0 nhalos_for_rank) (
      Barrier (
      if Nat.eqb rank 0 then collate outdir tmp_name outbn nranks (Exit (Ok tt))
      else Exit (Ok tt)))))
  | _ => Exit (Err TypeError)
  end))))))))).

(** ** data_loaders/load_hacc_mahs.py *)

(** What the loader uses of a haccytrees simulation (external). *)
Record HaccSim : Type := mkHaccSim {
  cosmotools_steps : list Z;
  step2z : Z -> xr;
  Omega_m : xr; w0 : xr; wa : xr; h : xr
}.

(** The installed packages and the input files (external): [simulations] and
    [parse_config] belong to haccytrees, [corematrix_reader fn nchunks chunknum]
    gives the matrices of one chunk of a file, [age_at_z] belongs to dsps. *)
Record HaccEnv : Type := mkHaccEnv {
  has_haccytrees : bool;
  has_dsps : bool;
  simulations : list (string * HaccSim);
  parse_config : string -> res HaccSim;
  corematrix_reader : string -> Z -> Z -> HaccSim -> res (list (string * list (list xr)));
  age_at_z : xr -> xr -> xr -> xr -> xr -> xr
}.

(** :28 *)
Definition MASS_COLNAME : string := "infall_tree_node_mass".

Section Hacc.
  Context (E : HaccEnv).

  (** :50-69 *)
  Definition load_forest (fn_data sim_name : string) (chunknum nchunks : Z)
    : res (HaccSim * list (string * list (list xr)) * list xr) :=
    if negb (has_haccytrees E) then Err ImportError
    else
      let* sim := match lookup sim_name (simulations E) with Some s => Ok s | None => parse_config E sim_name end in
      let zarr := map (step2z sim) (cosmotools_steps sim) in
      let* forest_matrices := corematrix_reader E fn_data nchunks chunknum sim in
      Ok (sim, forest_matrices, zarr).

  (** flat_wcdm.age_at_z(zarr, *CosmoParams(Om0, w0, wa, h)) *)
  Definition ages (sim : HaccSim) (zarr : list xr) : list xr :=
    map (fun z => age_at_z E z (Omega_m sim) (w0 sim) (wa sim) (h sim)) zarr.

  (** :72-79; without the packages the names HACCSim and flat_wcdm are unbound. *)
  Definition get_cosmic_time_hacc (sim_name : string) : res (list xr * list xr) :=
    if negb (has_haccytrees E) then Err NameError
    else
      let* sim := match lookup sim_name (simulations E) with Some s => Ok s | None => Err KeyError end in
      let zarr := map (step2z sim) (cosmotools_steps sim) in
      if negb (has_dsps E) then Err NameError
      else Ok (zarr, ages sim zarr).

  (** :82-131 *)
  Definition load_mahs (fn_data sim_name : string) (chunknum nchunks : Z) (mass_colname : string)
    : res (list xr * list (list xr)) :=
    let* r := load_forest fn_data sim_name chunknum nchunks in
    let '(sim, forest_matrices, zarr) := r in
    let* mahs := match lookup mass_colname forest_matrices with Some m => Ok m | None => Err KeyError end in
    let mahs := hacc_mahs mahs (h sim) in
    if negb (has_dsps E) then Err ImportError
    else Ok (ages sim zarr, mahs).
End Hacc.
