(** Model of the MPI fitting scripts: ranks exchanging messages, meeting at
    barriers and writing files, under an arbitrary schedule. *)

From Coq Require Import Reals String List ZArith Bool Ascii.
From Verif Require Import Model_Num Model_Base Model_Kernels Model_Adam Model_Fitter Model_Outline
  Model_Utils Model_Data.
Import ListNotations.
Local Open Scope list_scope.

(** ** Files *)

(** A file is named by its directory and its base name.  Directories are
    canonical; os.path.join and os.path.basename are then pairing and projection.
    Directory names holding braces, blanks or shell wildcards are excluded. *)
Definition path := (str * str)%type.
Definition eqb_path (p q : path) : bool := (eqb_str (fst p) (fst q) && eqb_str (snd p) (snd q))%bool.
Inductive file : Type := Text (s : str) | H5 (h : hdf).
Definition tree := path -> option file.
Definition fset (f : tree) (p : path) (o : option file) : tree :=
  fun q => if eqb_path q p then o else f q.

(** ** What a rank does *)

(** Point-to-point messages and collective operations never match each other. *)
Inductive tag : Type := P2P | Coll.
Inductive msg : Type :=
| MRows (l : list (list xr)) | MVec (v : list xr) | MInt (z : Z) | MNum (x : xr).

(** The rest of the run of one rank, up to its result or uncaught exception.
    [Send] is comm.send; [Await] is a send that has not returned yet.  [Look]
    is os.path.isfile or reading a file; [Open] is open(p, "w"); [Write] is
    fout.write; [Create] is h5py.File(p, "w"); [Put] stores one dataset; [RmGlob]
    is os.system("rm d/pre*suf"), whose status is ignored; [Unlink] is "rm p".
    Printing and timing are not modelled; written text is on disk at once. *)
Inductive prog (A : Type) : Type :=
| Exit (r : res A)
| Send (dst : nat) (t : tag) (m : msg) (k : prog A)
| Await (dst : nat) (t : tag) (k : prog A)
| Recv (src : nat) (t : tag) (k : msg -> prog A)
| Barrier (k : prog A)
| Look (p : path) (k : option file -> prog A)
| Open (p : path) (k : prog A)
| Write (p : path) (s : str) (k : prog A)
| Create (p : path) (k : prog A)
| Put (p : path) (key : str) (c : column) (k : prog A)
| RmGlob (d pre suf : str) (k : prog A)
| Unlink (p : path) (k : bool -> prog A).
Arguments Exit {A} _.
Arguments Send {A} _ _ _ _.
Arguments Await {A} _ _ _.
Arguments Recv {A} _ _ _.
Arguments Barrier {A} _.
Arguments Look {A} _ _.
Arguments Open {A} _ _.
Arguments Write {A} _ _ _.
Arguments Create {A} _ _.
Arguments Put {A} _ _ _ _.
Arguments RmGlob {A} _ _ _ _.
Arguments Unlink {A} _ _.

(** Messages on their way, in the order sent, per sender, receiver and tag. *)
Definition chans := nat -> nat -> tag -> list msg.
Definition eqb_tag (s t : tag) : bool := match s, t with P2P, P2P | Coll, Coll => true | _, _ => false end.
Definition cset (c : chans) (i j : nat) (t : tag) (q : list msg) : chans :=
  fun i' j' t' => if (Nat.eqb i' i && Nat.eqb j' j && eqb_tag t' t)%bool then q else c i' j' t'.

(** Communication of rank [i].  MPI may return from a send at once or only when
    the message has been received; [eager] says which, message by message. *)
Definition comm_step {A} (eager : nat -> nat -> msg -> bool) (i : nat) (p : prog A) (c : chans)
  : option (prog A * chans) :=
  match p with
  | Send j t m k => Some (if eager i j m then k else Await j t k, cset c i j t (c i j t ++ [m]))
  | Await j t k => match c i j t with [] => Some (k, c) | _ => None end
  | Recv j t k => match c j i t with [] => None | m :: q => Some (k m, cset c j i t q) end
  | _ => None
  end.

(** "*" in a shell pattern: anything without a slash.  Names beginning with a
    dot are not special here: the patterns used begin with a letter. *)
Definition glob (pre suf s : str) : bool :=
  let n := (List.length s - List.length pre - List.length suf)%nat in
  let mid := firstn n (skipn (List.length pre) s) in
  (eqb_str s (pre ++ mid ++ suf) && forallb (fun c => negb (Ascii.eqb c "/"%char)) mid)%bool.

(** File operations. *)
Definition disk_step {A} (p : prog A) (f : tree) : option (prog A * tree) :=
  match p with
  | Look q k => Some (k (f q), f)
  | Open q k => Some (k, fset f q (Some (Text [])))
  | Write q s k =>
      Some (k, match f q with Some (Text s0) => fset f q (Some (Text (s0 ++ s))) | _ => f end)
  | Create q k => Some (k, fset f q (Some (H5 [])))
  | Put q key c k =>
      Some (k, match f q with Some (H5 h) => fset f q (Some (H5 (h ++ [(key, c)]))) | _ => f end)
  | RmGlob d pre suf k =>
      Some (k, fun q => if (eqb_str (fst q) d && glob pre suf (snd q))%bool then None else f q)
  | Unlink q k => match f q with
                  | Some _ => Some (k true, fset f q None)
                  | None => Some (k false, f)
                  end
  | _ => None
  end.

(** ** Schedules *)

Record state (A : Type) : Type := mkState { procs : nat -> prog A; chan : chans; fs : tree }.
Arguments mkState {A} _ _ _.
Arguments procs {A} _ _.
Arguments chan {A} _ _ _ _.
Arguments fs {A} _ _.

Definition pset {A} (ps : nat -> prog A) (i : nat) (p : prog A) : nat -> prog A :=
  fun j => if Nat.eqb j i then p else ps j.

(** One step of [n] ranks: any one rank acts, or all leave a barrier that all
    have reached. *)
Inductive step {A} (eager : nat -> nat -> msg -> bool) (n : nat) : state A -> state A -> Prop :=
| step_comm : forall s i p c, (i < n)%nat ->
    comm_step eager i (procs s i) (chan s) = Some (p, c) ->
    step eager n s (mkState (pset (procs s) i p) c (fs s))
| step_disk : forall s i p f, (i < n)%nat ->
    disk_step (procs s i) (fs s) = Some (p, f) ->
    step eager n s (mkState (pset (procs s) i p) (chan s) f)
| step_barrier : forall s ks, (0 < n)%nat ->
    (forall i, (i < n)%nat -> procs s i = Barrier (ks i)) ->
    step eager n s (mkState (fun i => if Nat.ltb i n then ks i else procs s i) (chan s) (fs s)).

Inductive steps {A} (eager : nat -> nat -> msg -> bool) (n : nat) : nat -> state A -> state A -> Prop :=
| steps_0 : forall s, steps eager n 0 s s
| steps_S : forall k s1 s2 s3, step eager n s1 s2 -> steps eager n k s2 s3 -> steps eager n (S k) s1 s3.

(** mpirun: all ranks start the same program, no message is on its way. *)
Definition start {A} (main : nat -> prog A) (f : tree) : state A := mkState main (fun _ _ _ => []) f.

(** ** mpi4py collectives *)

(** comm.bcast(x, root=0): the root sends to every other rank.  Real
    implementations may forward along a tree of ranks. *)
Fixpoint sends {A} (m : msg) (dsts : list nat) (k : prog A) : prog A :=
  match dsts with [] => k | j :: l => Send j Coll m (sends m l k) end.
Definition bcast {A} (rank size : nat) (m : msg) (k : msg -> prog A) : prog A :=
  if Nat.eqb rank 0 then sends m (seq 1 (size - 1)) (k m) else Recv 0 Coll k.

(** comm.reduce(x, op, root=0): the root combines the values in rank order. *)
Fixpoint recvs {A} (op : msg -> msg -> msg) (acc : msg) (srcs : list nat) (k : msg -> prog A) : prog A :=
  match srcs with [] => k acc | j :: l => Recv j Coll (fun m => recvs op (op acc m) l k) end.
Definition reduce {A} (op : msg -> msg -> msg) (rank size : nat) (m : msg) (k : option msg -> prog A)
  : prog A :=
  if Nat.eqb rank 0 then recvs op m (seq 1 (size - 1)) (fun r => k (Some r))
  else Send 0 Coll m (k None).
(** comm.allreduce *)
Definition allreduce {A} (op : msg -> msg -> msg) (rank size : nat) (m : msg) (k : msg -> prog A) : prog A :=
  reduce op rank size m (fun o => bcast rank size (match o with Some r => r | None => m end) k).

(** MPI.SUM and MPI.MAX on pickled Python numbers: x + y, and y if y > x else x. *)
Definition op_sum (a b : msg) : msg := match a, b with MInt x, MInt y => MInt (x + y) | _, _ => a end.
Definition op_max (a b : msg) : msg :=
  match a, b with MNum x, MNum y => if Model_Num.xltb x y then MNum y else MNum x | _, _ => a end.

(** Continue with a value or stop with the exception. *)
Definition lift {A B} (r : res B) (k : B -> prog A) : prog A :=
  match r with Ok b => k b | Err e => Exit (Err e) end.
(** l[i] for i >= 0 *)
Definition index {A} (l : list A) (i : nat) : res A :=
  match nth_error l i with Some a => Ok a | None => Err IndexError end.

(** ** data_loaders/load_hacc_mahs.py *)

Fixpoint scatter_loop {A} (root i : nat) (splits : list (list (list xr))) (ans : list (list xr))
  (k : list (list xr) -> prog A) : prog A :=
  match splits with
  | [] => k ans
  | x :: l => if Nat.eqb i root then scatter_loop root (S i) l x k
              else Send i P2P (MRows x) (scatter_loop root (S i) l ans k)
  end.
(** :31-47.  A message of another kind would be an error later; none is ever sent. *)
Definition scatter_nd {A} (array : list (list xr)) (rank size root : nat) (k : list (list xr) -> prog A)
  : prog A :=
  if Nat.eqb rank root
  then lift (array_split array size) (fun splits => scatter_loop root 0 splits [] k)
  else Recv root P2P (fun m => match m with MRows x => k x | _ => Exit (Err TypeError) end).

(** :134-150.  [load] is what load_mahs returns on rank 0. *)
Definition load_mahs_per_rank {A} (load : res (list xr * list (list xr))) (rank size : nat)
  (k : list xr -> list (list xr) -> prog A) : prog A :=
  let go (tarr : list xr) (mahs : list (list xr)) :=
    scatter_nd mahs rank size 0 (fun mahs_for_rank =>
    bcast rank size (MVec tarr) (fun m =>
    match m with MVec t => k t mahs_for_rank | _ => Exit (Err TypeError) end)) in
  if Nat.eqb rank 0 then lift load (fun tm => go (fst tm) (snd tm)) else go [] [].

(** ** Text of numpy and Python used by the scripts *)

(** s.split(c) for one character *)
Fixpoint split_on (c : ascii) (s : str) : list str :=
  match s with
  | [] => [[]]
  | a :: s' =>
      match split_on c s' with
      | w :: l => if Ascii.eqb a c then [] :: w :: l else (a :: w) :: l
      | [] => [[a]]
      end
  end.
(** c.join(l) *)
Fixpoint join_on (c : ascii) (l : list str) : str :=
  match l with [] => [] | [s] => s | s :: l' => s ++ c :: join_on c l' end.

(** Lines of a file opened in text mode; a carriage return also ends a line. *)
Definition newline : ascii := ascii_of_nat 10.
Definition to_newline (c : ascii) : ascii := if Ascii.eqb c (ascii_of_nat 13) then newline else c.
Definition lines (s : str) : list str := split_on newline (map to_newline s).
(** line.split("#", 1)[0] *)
Fixpoint before_hash (s : str) : str :=
  match s with [] => [] | c :: s' => if Ascii.eqb c "#"%char then [] else c :: before_hash s' end.

(** Arrays of strings *)
Inductive sarr : Type := A0 (x : str) | A1 (l : list str) | A2 (t : table).

(** np.genfromtxt(fn, dtype="str") (external): comments and blank lines dropped,
    words separated by white space, all rows equally long, singleton axes
    squeezed out. *)
Definition genfromtxt (s : str) : res sarr :=
  match filter (fun r => match r with [] => false | _ => true end)
          (map (fun l => split (before_hash l)) (lines s)) with
  | [] => Ok (A1 [])
  | (r :: rs) as rows =>
      let n := List.length r in
      if forallb (fun r => Nat.eqb (List.length r) n) rs
      then Ok (match rs with
               | [] => match r with [x] => A0 x | _ => A1 r end
               | _ => if Nat.eqb n 1 then A1 (List.concat rows) else A2 (mkTable n rows)
               end)
      else Err ValueError
  end.

(** np.concatenate(l) (external): all of one rank >= 1 and, if 2-d, one width. *)
Definition concat2 (x y : sarr) : res sarr :=
  match x, y with
  | A1 a, A1 b => Ok (A1 (a ++ b))
  | A2 a, A2 b => if Nat.eqb (ncols a) (ncols b) then Ok (A2 (mkTable (ncols a) (rows a ++ rows b)))
                  else Err ValueError
  | _, _ => Err ValueError
  end.
Definition np_concatenate (l : list sarr) : res sarr :=
  match l with
  | [] => Err ValueError
  | A0 _ :: _ => Err ValueError
  | x :: l' => fold_left (fun r y => let* a := r in concat2 a y) l' (Ok x)
  end.

(** f"{n:0{w}d}" for n >= 0 *)
Definition pad_int (w : nat) (n : Z) : str :=
  let s := str_of_int n in repeat "0"%char (w - List.length s) ++ s.

(** ** Shared parts of the scripts *)

(** TMP_OUTPAT.format(i) *)
Definition tmp_name (i : nat) : str := lit "tmp_mah_fits_rank_" ++ str_of_int (Z.of_nat i) ++ lit ".dat".

(** tng_diffmah_fitter_script.py:75-82 and alike: the header, then one line per
    halo, computed as the loop goes. *)
Fixpoint write_lines {A H} (p : path) (line : H -> res str) (halos : list H) (k : prog A) : prog A :=
  match halos with
  | [] => k
  | h :: l => lift (line h) (fun s => Write p s (write_lines p line l k))
  end.
Definition write_rank_file {A H} (p : path) (header : str) (line : H -> res str) (halos : list H)
  (k : prog A) : prog A :=
  Open p (Write p header (write_lines p line halos k)).
Definition fit_line {H} (fit : H -> res FitResult) (h : H) : res str :=
  let* fr := fit h in Ok (get_outline fr None).

(** tng_diffmah_fitter_script.py:95-99 and alike *)
Fixpoint read_all {A} (fns : list path) (collector : list sarr) (k : list sarr -> prog A) : prog A :=
  match fns with
  | [] => k collector
  | fn :: l =>
      Look fn (fun o =>
      match o with
      | None => Exit (Err AssertionError)
      | Some _ =>
          Look fn (fun o =>
          match o with
          | Some (Text s) => lift (genfromtxt s) (fun a => read_all l (collector ++ [a]) k)
          | _ => Exit (Err ValueError)
          end)
      end)
  end.

(** diffmah_fitter_helpers.py:172-215, one dataset at a time; [shape[1]] of a
    1-d array is an IndexError. *)
Fixpoint put_all {A} (p : path) (h : hdf) (k : prog A) : prog A :=
  match h with [] => k | (key, c) :: h' => Put p key c (put_all p h' k) end.
Definition write_collated {A} (p : path) (a : sarr) (k : prog A) : prog A :=
  match a with
  | A2 t =>
      match write_collated_data (fun _ => None) (snd p) t with
      | (fs', Ok _) => match fs' (snd p) with Some h => Create p (put_all p h k) | None => k end
      | (_, Err e) => Exit (Err e)
      end
  | _ => Exit (Err IndexError)
  end.

(** tng_diffmah_fitter_script.py:88-113 and alike: rank 0 reads the files of all
    ranks, writes the table and removes "_".join(bn.split("_")[:-1]) + "_*.dat". *)
Definition collate {A} (outdir : str) (name : nat -> str) (outbn : str) (nranks : nat) (k : prog A) : prog A :=
  let fit_data_bnames := map name (seq 0 nranks) in
  read_all (map (fun bn => (outdir, bn)) fit_data_bnames) [] (fun collector =>
  lift (np_concatenate collector) (fun chunk_fit_results =>
  write_collated (outdir, outbn) chunk_fit_results (
  lift (index fit_data_bnames 0) (fun bn =>
  let pre := join_on "_"%char (removelast (split_on "_"%char bn)) ++ lit "_" in
  RmGlob outdir pre (lit ".dat") k)))).

(** ** scripts/fitting_scripts/tng_diffmah_fitter_script.py *)

(** :55-113.  Every rank has loaded [mahs]; [fitter mah] is
    cfh.diffmah_fitter(tarr, mah). *)
Definition tng_main (fitter : list xr -> res FitResult) (outdir : str) (mahs : list (list xr))
  (nranks rank : nat) : prog unit :=
  lift (array_split (seq 0 (List.length mahs)) nranks) (fun splits =>
  lift (index splits rank) (fun indx =>
  lift (take mahs indx) (fun mahs_for_rank =>
  Barrier (
  reduce op_sum rank nranks (MInt (Z.of_nat (List.length mahs_for_rank))) (fun _ =>
  Barrier (
  write_rank_file (outdir, tmp_name rank) HEADER (fit_line fitter) mahs_for_rank (
  Barrier (
  if Nat.eqb rank 0
  then collate outdir tmp_name (lit "diffmah_tng_fits.hdf5") nranks (Exit (Ok tt))
  else Exit (Ok tt))))))))).

(** ** scripts/fitting_scripts/bolshoi_planck_fitting_script.py *)

Definition fit_line_id {H} (fit : H -> res FitResult) (h : Z * H) : res str :=
  let* fr := fit (snd h) in Ok (get_outline fr (Some (fst h))).

(** :52-131 without -test.  Rank 0 also writes the target histories; the 2-d
    dataset is stored flattened.  There is no barrier before the writing. *)
Definition bpl_main (fitter : list xr -> res FitResult) (outdir : str) (halo_ids : list Z)
  (mahs : list (list xr)) (bpl_t_table : list xr) (nranks rank : nat) : prog unit :=
  let rest :=
    lift (array_split (seq 0 (List.length halo_ids)) nranks) (fun splits =>
    lift (index splits rank) (fun indx =>
    lift (take halo_ids indx) (fun halo_ids_for_rank =>
    lift (take mahs indx) (fun mahs_for_rank =>
    write_rank_file (outdir, tmp_name rank) HEADER_HALO_ID (fit_line_id fitter)
      (combine halo_ids_for_rank mahs_for_rank) (
    Barrier (
    if Nat.eqb rank 0
    then collate outdir tmp_name (lit "diffmah_fits.hdf5") nranks (Exit (Ok tt))
    else Exit (Ok tt))))))) in
  if Nat.eqb rank 0
  then let p := (outdir, lit "bpl_mpeak_histories.hdf5") in
       Create p (put_all p [(lit "halo_id", IntCol halo_ids);
                            (lit "mpeak_history", FloatCol (List.concat mahs));
                            (lit "bpl_t_table", FloatCol bpl_t_table)] rest)
  else rest.

(** ** scripts/fitting_scripts/galacticus_diffmah_fitter_script.py *)

(** x[-1] *)
Definition last_of (l : list xr) : res xr :=
  match rev l with [] => Err IndexError | x :: _ => Ok x end.
Fixpoint lasts (l : list (list xr)) : res (list xr) :=
  match l with [] => Ok [] | t :: l' => let* x := last_of t in let* r := lasts l' in Ok (x :: r) end.
(** x.max(): NaN propagates; an empty array is a ValueError *)
Definition np_max (l : list xr) : res xr :=
  match l with [] => Err ValueError | x :: l' => Ok (fold_left xmax l' x) end.

(** :89-104: one halo, given the times and masses read from the file *)
Definition galacticus_fit (fitter : list xr -> list xr -> bool -> res FitResult) (dt_fit_min T0 : xr)
  (h : list xr * list xr) : res FitResult :=
  let (t_sim, mah) := h in
  let mah_sim := maximum_accumulate mah in
  let* t_last := last_of t_sim in
  let* t_first := index t_sim 0 in
  let force_skip_fit := Model_Num.xltb (xsub t_last t_first) dt_fit_min in
  if Model_Num.xltb t_last T0 then
    let* m_last := last_of mah_sim in
    fitter (t_sim ++ [T0]) (mah_sim ++ [m_last]) force_skip_fit
  else fitter t_sim mah_sim force_skip_fit.

(** :59-136 without -test.  [halos] are the (times, masses) of the whole file. *)
Definition galacticus_main (fitter : list xr -> list xr -> bool -> res FitResult) (dt_fit_min : xr)
  (outdir outbn : str) (halos : list (list xr * list xr)) (nranks rank : nat) : prog unit :=
  lift (array_split (seq 0 (List.length halos)) nranks) (fun splits =>
  lift (index splits rank) (fun indx_for_rank =>
  lift (index indx_for_rank 0) (fun istart =>
  lift (index indx_for_rank (List.length indx_for_rank - 1)) (fun ilast =>
  let halos_for_rank := slice istart (ilast + 1) halos in
  Barrier (
  lift (let* ts := lasts (map fst halos_for_rank) in np_max ts) (fun t_max_for_rank =>
  allreduce op_max rank nranks (MNum t_max_for_rank) (fun m =>
  match m with
  | MNum T0 =>
      Barrier (Barrier (
      write_rank_file (outdir, tmp_name rank) HEADER
        (fit_line (galacticus_fit fitter dt_fit_min T0)) halos_for_rank (
      Barrier (
      if Nat.eqb rank 0 then collate outdir tmp_name outbn nranks (Exit (Ok tt))
      else Exit (Ok tt)))))
  | _ => Exit (Err TypeError)
  end))))))).

(** ** scripts/fitting_scripts/hacc_lastjourney_diffmah_fitter_script.py *)

(** :102-105 *)
Definition chunk_base (nchar : nat) (isubvol chunknum : Z) : str :=
  lit "subvol_" ++ str_of_int isubvol ++ lit "_chunk_" ++ pad_int nchar chunknum.
Definition chunk_tmp (nchar : nat) (isubvol chunknum : Z) (i : nat) : str :=
  chunk_base nchar isubvol chunknum ++ lit "_" ++ tmp_name i.
(** :137 "_".join(fit_data_bnames[0].split("_")[:4]) + ".hdf5" *)
Definition chunk_out (bname0 : str) : str :=
  join_on "_"%char (firstn 4 (split_on "_"%char bname0)) ++ lit ".hdf5".

(** :92-148, one chunk of one subvolume.  [load] is what load_mahs returns for it. *)
Definition chunk_job (fitter : list xr -> list xr -> res FitResult)
  (load : Z -> Z -> res (list xr * list (list xr))) (outdir : str) (nchar : nat) (nranks rank : nat)
  (job : Z * Z) (k : prog unit) : prog unit :=
  let (isubvol, chunknum) := job in
  let name := chunk_tmp nchar isubvol chunknum in
  Barrier (
  load_mahs_per_rank (load isubvol chunknum) rank nranks (fun tarr mahs_for_rank =>
  reduce op_sum rank nranks (MInt (Z.of_nat (List.length mahs_for_rank))) (fun _ =>
  Barrier (
  write_rank_file (outdir, name rank) HEADER (fit_line (fitter tarr)) mahs_for_rank (
  Barrier (
  if Nat.eqb rank 0 then collate outdir name (chunk_out (name 0%nat)) nranks (Barrier k)
  else Barrier k)))))).

(** :85-159, the loops *)
Fixpoint chunk_jobs (job : Z -> prog unit -> prog unit) (chunks : list Z) (k : prog unit) : prog unit :=
  match chunks with [] => k | c :: l => job c (chunk_jobs job l k) end.
Fixpoint subvol_jobs (job : Z -> Z -> prog unit -> prog unit) (chunks subvolumes : list Z) (k : prog unit)
  : prog unit :=
  match subvolumes with
  | [] => k
  | s :: l => chunk_jobs (job s) chunks (Barrier (subvol_jobs job chunks l k))
  end.
(** :69-76 without -test; [num] is -num_subvols_tot, and -iend is -1 by default. *)
Definition lastjourney_subvolumes (num istart iend : Z) : list Z :=
  py_slice istart (Some iend) (zrange 0 num).
Definition lastjourney_main (fitter : list xr -> list xr -> res FitResult)
  (load : Z -> Z -> res (list xr * list (list xr))) (outdir : str) (nchunks : Z) (subvolumes : list Z)
  (nranks rank : nat) : prog unit :=
  let nchar := List.length (str_of_int nchunks) in
  let chunks := zrange 0 nchunks in
  subvol_jobs (fun s c => chunk_job fitter load outdir nchar nranks rank (s, c)) chunks subvolumes
    (Barrier (Exit (Ok tt))).

(** ** scripts/fitting_scripts/hacc_discovery_sims_diffmah_fitter_script.py *)

(** Names bound in the package diffmah.fitting_helpers, which the script imports
    as cfh: __init__.py:6-8 and the submodules loaded on the way. *)
Definition fitting_helpers_names : list string :=
  ["diffmah_fitter"; "diffmah_fitter_helpers"; "bfgs_wrapper"; "fit_utils"; "measure_mahs"]%string.
Definition attribute {B} (names : list string) (name : string) (b : B) : res B :=
  if existsb (String.eqb name) names then Ok b else Err AttributeError.

(** :95-149, one chunk; there is no barrier after the collation. *)
Definition discovery_job (fitter : list xr -> list xr -> res FitResult)
  (load : Z -> Z -> res (list xr * list (list xr))) (outdir : str) (nchar : nat) (nranks rank : nat)
  (job : Z * Z) (k : prog unit) : prog unit :=
  let (isubvol, chunknum) := job in
  let name := chunk_tmp nchar isubvol chunknum in
  let p := (outdir, name rank) in
  Barrier (
  load_mahs_per_rank (load isubvol chunknum) rank nranks (fun tarr mahs_for_rank =>
  reduce op_sum rank nranks (MInt (Z.of_nat (List.length mahs_for_rank))) (fun _ =>
  Barrier (
  Open p (
  lift (attribute fitting_helpers_names "HEADER" HEADER) (fun header =>
  Write p header (
  write_lines p
    (fun mah => let* fit := attribute fitting_helpers_names "diffmah_fitter" (fitter tarr) in
                let* fr := fit mah in
                attribute fitting_helpers_names "get_outline" (get_outline fr None)) mahs_for_rank (
  Barrier (
  if Nat.eqb rank 0
  then lift (attribute fitting_helpers_names "write_collated_data" tt) (fun _ =>
       collate outdir name (chunk_out (name 0%nat)) nranks k)
  else k))))))))).
(** :87-149 *)
Definition discovery_main (fitter : list xr -> list xr -> res FitResult)
  (load : Z -> Z -> res (list xr * list (list xr))) (outdir : str) (nchunks : Z) (subvolumes : list Z)
  (nranks rank : nat) : prog unit :=
  let nchar := List.length (str_of_int nchunks) in
  fold_right (fun s k => chunk_jobs (fun c => discovery_job fitter load outdir nchar nranks rank (s, c))
                           (zrange 0 nchunks) k)
    (Exit (Ok tt)) subvolumes.

(** ** scripts/fitting_scripts/unchunk_last_journey_script.py *)

(** np.concatenate of numeric columns; mixed integers and floats give floats *)
Definition to_float (c : column) : list xr :=
  match c with FloatCol l => l | IntCol l => map (fun z => Fin (IZR z)) l end.
Definition is_int (c : column) : bool := match c with IntCol _ => true | _ => false end.
Definition ints (c : column) : list Z := match c with IntCol l => l | FloatCol _ => [] end.
Definition concat_columns (l : list column) : column :=
  if forallb is_int l then IntCol (List.concat (map ints l)) else FloatCol (List.concat (map to_float l)).

(** x[key] for a loaded file *)
Definition get_key (h : hdf) (key : str) : res column :=
  match find (fun kc => eqb_str (fst kc) key) h with Some kc => Ok (snd kc) | None => Err KeyError end.

(** :22-23 *)
Definition fits_name (subvol : Z) (chunk : Z) (nchar : nat) : str :=
  chunk_base nchar subvol chunk ++ lit ".hdf5".
Definition unchunk_name (subvol : Z) : str := lit "subvol_" ++ str_of_int subvol ++ lit "_diffmah_fits.hdf5".

(** :63-73.  load_flat_hdf5 of diffsky (external) returns all top-level datasets;
    their order is that of the model's list instead of alphabetical. *)
Fixpoint load_chunks {A} (fns : list path) (collector : list hdf) (k : list hdf -> prog A) : prog A :=
  match fns with
  | [] => k collector
  | fn :: l => Look fn (fun o => match o with
                                 | Some (H5 h) => load_chunks l (collector ++ [h]) k
                                 | _ => Exit (Err OSError)
                                 end)
  end.

(** :75-79 *)
Definition merge_chunks (collector : list hdf) : res hdf :=
  let* first := index collector 0 in
  collect (map (fun key => let* l := collect (map (fun x => get_key x key) collector) in
                           Ok (key, concat_columns l)) (map fst first)).

(** :57-84 *)
Fixpoint unchunk_loop {A} (indir outdir : str) (nchunks : Z) (nchar : nat) (subvols : list Z)
  (to_delete : list path) (k : list path -> prog A) : prog A :=
  match subvols with
  | [] => k to_delete
  | s :: l =>
      let fns := map (fun c => (indir, fits_name s c nchar)) (zrange 0 nchunks) in
      load_chunks fns [] (fun collector =>
      lift (merge_chunks collector) (fun data_out =>
      let p := (outdir, unchunk_name s) in
      Create p (put_all p data_out (unchunk_loop indir outdir nchunks nchar l (to_delete ++ fns) k))))
  end.
(** :100-102; check_output raises when rm fails *)
Fixpoint remove_all {A} (fns : list path) (k : prog A) : prog A :=
  match fns with
  | [] => k
  | fn :: l => Unlink fn (fun ok : bool => if ok then remove_all l k else Exit (Err CalledProcessError))
  end.
(** :51-102 with NCHUNKS = 20 (:25) *)
Definition unchunk_main (indir outdir : str) (istart iend : Z) : prog unit :=
  let nchunks := 20%Z in
  let nchar := List.length (str_of_int nchunks) in
  unchunk_loop indir outdir nchunks nchar (zrange istart iend) [] (fun fns => remove_all fns (Exit (Ok tt))).
