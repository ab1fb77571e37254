(** Vocabulary for the tabulated samples: bins, file names, collated files. *)

From Coq Require Import Reals String List ZArith Bool Ascii Sorted.
From Verif Require Import Model_Num Model_Base Model_Kernels Model_Outline Model_Data Model_MPI Model_Tab.
Import ListNotations.
Local Open Scope list_scope.
Local Open Scope R_scope.

(** ** Bins *)

(** [n] equally spaced numbers from [a] to [b]; just [a] when [n = 1]. *)
Definition points (a b : R) (n : nat) : list R :=
  map (fun j => a + INR j * ((b - a) / (INR n - 1))) (seq 0 n).

(** The largest tabulated mass at a time, the masses at a time, and all bins
    (mass, time). *)
Definition top_mass (t : R) : R := 15 + 75 / 1000 * (t - 15).
Definition bin_masses (t : R) (n_m : nat) : list R := points 11 (top_mass t) n_m.
Definition bins (t0 : R) (n_m n_t : nat) : list (R * R) :=
  flat_map (fun t => map (fun m => (m, t)) (bin_masses t n_m)) (points 2 t0 n_t).

(** A mass lies in the bin of a tabulated mass. *)
Definition in_bin (m centre : R) : Prop := Rabs (m - centre) < 15 / 100.

(** [kept keep n idx]: [idx] lists in increasing order the numbers below [n]
    that satisfy [keep]. *)
Definition kept (keep : nat -> Prop) (n : nat) (idx : list nat) : Prop :=
  StronglySorted lt idx /\ forall i, In i idx <-> (i < n)%nat /\ keep i.
(** The entries of a column with the given numbers. *)
Definition pick {A} (idx : list nat) (default : A) (col : list A) : list A :=
  map (fun i => nth i col default) idx.

(** ** Files *)

Definition kinds : list str := [lit "cens"; lit "sats"].
Definition bin_name (b : R * R) (kind : str) : str :=
  lit "lgm_" ++ format_2f (Fin (fst b)) ++ lit "_t_" ++ format_2f (Fin (snd b)) ++ lit "_mah_params." ++ kind.
(** The sample of subvolume [k], and the collated file of a bin. *)
Definition sample_file (k : Z) (b : R * R) (kind : str) : str :=
  lit "subvol_" ++ str_of_int k ++ lit "_" ++ bin_name b kind ++ lit ".txt".
Definition bin_file (b : R * R) (kind : str) : str := bin_name b kind ++ lit ".npy".

Definition begins (pre s : str) : Prop := exists rest, s = pre ++ rest.
(** A file of [drn] whose name begins with "subvol_" *)
Definition subvol_file (drn : str) (p : path) : Prop := fst p = drn /\ begins (lit "subvol_") (snd p).

(** [d] holds in [drn] only samples of the given bins under names beginning with
    "subvol_": text tables of six columns. *)
Definition sample_dir (d : disk) (drn : str) (bs : list (R * R)) : Prop :=
  NoDup (map fst (dfiles d)) /\
  forall p f, In (p, f) (dfiles d) -> subvol_file drn p ->
    exists k b kind rows, (0 <= k)%Z /\ In b bs /\ In kind kinds /\ snd p = sample_file k b kind /\
      f = Txt rows /\ Forall (fun r => List.length r = 6%nat) rows.

(** The samples of one bin on a disk: the tables of all files of [drn] named
    subvol_..._<name>.txt, one after the other in directory order. *)
Definition of_bin (drn name : str) (p : path) : bool :=
  (eqb_str (fst p) drn && starts_with (lit "subvol_") (snd p) &&
   ends_with (lit "_" ++ name ++ lit ".txt") (snd p) &&
   Nat.leb (7 + (1 + List.length name + 4)) (List.length (snd p)))%bool.
Definition bin_tables (d : disk) (drn name : str) : list (list (list xr)) :=
  map (fun e : path * content => match snd e with Txt rows => rows | _ => [] end)
    (filter (fun e : path * content => of_bin drn name (fst e)) (dfiles d)).

(** Every bin with samples on [d] is collated on [x]: one six-column array with
    all its rows; a bin without samples has no file. *)
Definition collated (d x : disk) (drn drnout : str) (bs : list (R * R)) : Prop :=
  forall b kind, In b bs -> In kind kinds ->
    dfind x (drnout, bin_file b kind) =
    match bin_tables d drn (bin_name b kind) with
    | [] => None
    | tables => Some (Npy (mkArr2 6 (concat tables)))
    end.

(** The output directory of a run. *)
Definition out_dir (drn : str) (n_m n_t istart iend : Z) : str :=
  drn ++ lit "/NM_" ++ str_of_int n_m ++ lit "_NT_" ++ str_of_int n_t ++ lit "_ISTART_" ++
  str_of_int istart ++ lit "_IEND_" ++ str_of_int iend.
