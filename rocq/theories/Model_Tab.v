(** Model of the tabulation of population targets
    (scripts/diffmahpop_tabulation/smdpl_diffmahpop_utils.py, called SDU below) and
    of their loader (diffmahpop_kernels/load_diffmahpop_fitdata.py, called LDF).
    One process; the disk is seen after every change made to it.

    Numbers are exact: the float32 result of the jitted mass threshold is not
    rounded.  Printing and timing are not modelled. *)

From Coq Require Import Reals String List ZArith Bool Ascii.
From Verif Require Import Model_Num Model_Base Model_Kernels Model_Outline Model_Utils Model_Data
  Model_MPI.
Import ListNotations.
Local Open Scope list_scope.

(** ** The disk *)

(** A data set of an HDF5 file or a table column: 1-d or 2-d. *)
Inductive dset : Type := D1 (l : list xr) | D2 (a : arr2).
Definition dlen (x : dset) : nat := match x with D1 l => List.length l | D2 a => List.length (rows2 a) end.

(** The six data sets of a target file (SDU:311-317, 340-346).  HDF5 files with other
    data sets are [Other]. *)
Record targets : Type := mkTargets {
  tg_lgm_obs : list xr;
  tg_t_obs : list xr;
  tg_mean_log_mah : dset;
  tg_std_log_mah : dset;
  tg_frac_peaked : dset;
  tg_t_table : dset
}.

(** What a file holds: the numbers of a text table (comments dropped), a 2-d npy
    array, a target file, or anything else, such as a file not fully written. *)
Inductive content : Type :=
| Txt (rows : list (list xr))
| Npy (a : arr2)
| Hdf (t : targets)
| Other.

(** Files in the order in which a directory lists them, and the directories. *)
Record disk : Type := mkDisk { dfiles : list (path * content); ddirs : list str }.

Definition dfind (d : disk) (p : path) : option content :=
  match find (fun e : path * content => eqb_path p (fst e)) (dfiles d) with Some e => Some (snd e) | None => None end.
Definition ddel (p : path) (d : disk) : disk :=
  mkDisk (filter (fun e : path * content => negb (eqb_path p (fst e))) (dfiles d)) (ddirs d).
Definition dput (p : path) (c : content) (d : disk) : disk :=
  mkDisk (dfiles (ddel p d) ++ [(p, c)]) (ddirs d).

(** glob(os.path.join(drn, pre + "*" + suf)).  "*" does not match a leading dot.
    Subdirectories with a matching name are excluded. *)
Definition dglob (drn pre suf : str) (d : disk) : list str :=
  map (fun e : path * content => snd (fst e))
    (filter (fun e : path * content => eqb_str (fst (fst e)) drn && glob pre suf (snd (fst e)) &&
                      negb (match pre, snd (fst e) with [], "."%char :: _ => true | _, _ => false end))%bool
       (dfiles d)).

(** A run: the successive disks, one per change, the last disk and the result. *)
Definition M (A : Type) : Type := disk -> list disk * disk * res A.
Definition mret {A} (a : A) : M A := fun d => ([], d, Ok a).
Definition mlift {A} (r : res A) : M A := fun d => ([], d, r).
Definition mlook {A} (f : disk -> A) : M A := fun d => ([], d, Ok (f d)).
Definition mact (f : disk -> disk) : M unit := fun d => ([f d], f d, Ok tt).
Definition mbind {A B} (m : M A) (k : A -> M B) : M B := fun d =>
  match m d with
  | (tr, d1, Ok a) => match k a d1 with (tr2, d2, r) => (tr ++ tr2, d2, r) end
  | (tr, d1, Err e) => (tr, d1, Err e)
  end.
Notation "'let!' x ':=' m 'in' k" := (mbind m (fun x => k))
  (at level 200, x pattern, right associativity).
Fixpoint mfor {A} (l : list A) (f : A -> M unit) : M unit :=
  match l with [] => mret tt | a :: l' => let! _ := f a in mfor l' f end.
Fixpoint mmap {A B} (f : A -> M B) (l : list A) : M (list B) :=
  match l with
  | [] => mret []
  | a :: l' => let! b := f a in let! bs := mmap f l' in mret (b :: bs)
  end.

(** np.loadtxt(fn): a missing file is an OSError, text with lines of different
    lengths a ValueError.  The entries are returned in order, since every caller
    reshapes them (a one-column or one-row file is 1-d). *)
Definition loadtxt (d : disk) (p : path) : res (list xr) :=
  match dfind d p with
  | None => Err OSError
  | Some (Txt rows) =>
      if forallb (fun r => Nat.eqb (List.length r) (List.length (hd [] rows))) rows
      then Ok (concat rows) else Err ValueError
  | Some _ => Err ValueError
  end.
(** np.load(fn) *)
Definition np_load (d : disk) (p : path) : res arr2 :=
  match dfind d p with
  | None => Err OSError
  | Some (Npy a) => Ok a
  | Some _ => Err ValueError
  end.
(** x.reshape((-1, NUM_DIFFMAH_PARAMS)); NUM_DIFFMAH_PARAMS = 6 (SDU:45) *)
Fixpoint reshape6 (l : list xr) : res (list (list xr)) :=
  match l with
  | [] => Ok []
  | a :: b :: c :: d :: e :: f :: l' => let* r := reshape6 l' in Ok ([a; b; c; d; e; f] :: r)
  | _ => Err ValueError
  end.

(** np.savetxt and np.save: the file is opened, then filled.  np.save adds ".npy"
    unless the name has it. *)
Definition savetxt (p : path) (rows : list (list xr)) : M unit :=
  let! _ := mact (dput p (Txt [])) in mact (dput p (Txt rows)).
Definition ends_with (suf s : str) : bool :=
  eqb_str (skipn (List.length s - List.length suf) s) suf.
Definition npy_name (s : str) : str := if ends_with (lit ".npy") s then s else s ++ lit ".npy".
Definition np_save (drn bn : str) (a : arr2) : M unit :=
  let! _ := mact (dput (drn, npy_name bn) Other) in mact (dput (drn, npy_name bn) (Npy a)).

(** s.replace(pat, "") for a non-empty pat *)
Definition starts_with (pat s : str) : bool := eqb_str (firstn (List.length pat) s) pat.
Fixpoint remove_from (pat : str) (skip : nat) (s : str) : str :=
  match s with
  | [] => []
  | c :: s' =>
      match skip with
      | S k => remove_from pat k s'
      | O => if starts_with pat s then remove_from pat (List.length pat - 1) s'
             else c :: remove_from pat 0 s'
      end
  end.

(** "{:.2f}".format(x): correctly rounded, ties to even *)
Definition format_2f (x : xr) : str :=
  match x with
  | NaN => lit "nan"
  | PInf => lit "inf"
  | MInf => lit "-inf"
  | Fin r =>
      let m := round_half_even (Rabs r * 100) in
      (if Rlt_dec r 0 then ["-"%char] else []) ++
      str_of_int (m / 100) ++ "."%char :: map digit_char (fixed_digits 2 (m mod 100))
  end.
(** A number written with "%.4f" and read back *)
Definition round4 (x : xr) : xr :=
  match x with Fin r => Fin (IZR (round_half_even (r * 10000)) / 10000) | _ => x end.

(** x[msk] *)
Fixpoint compress {A} (msk : list bool) (x : list A) : res (list A) :=
  match msk, x with
  | [], [] => Ok []
  | b :: msk', a :: x' => let* r := compress msk' x' in Ok (if b then a :: r else r)
  | _, _ => Err IndexError
  end.

(** f(x1, ..., x_nargs) for a Python function of nparams positional parameters
    without defaults *)
Definition call {A} (nparams nargs : nat) (r : res A) : res A :=
  if Nat.eqb nparams nargs then r else Err TypeError.

(** np.linspace(a, b, n) *)
Definition np_linspace (a b : xr) (n : Z) : res (list xr) :=
  if (n <? 0)%Z then Err ValueError
  else if (n =? 1)%Z then Ok [a]
  else Ok (map (fun i => xadd a (xmul (Fin (INR i)) (xdiv (xsub b a) (Fin (IZR (n - 1))))))
             (seq 0 (Z.to_nat n))).

(** ** SDU *)

(** SDU:29-41 *)
Definition LGMH_MIN : xr := Fin 11.
Definition T0_SMDPL : xr := Fin (137976158 / 10000000).
Definition T_TABLE_MIN : xr := Fin (1 / 2).
Definition T_OBS_TARGET_MIN : xr := Fin 2.
Definition N_SUBVOL_SMDPL : Z := 576.
Definition N_HALOS_MAX : Z := 20000.
Definition N_HALOS_PER_SUBVOL : nat := Z.to_nat (N_HALOS_MAX / N_SUBVOL_SMDPL).
Definition N_LGM_BINS : Z := 12.

(** SDU:48-57 *)
Definition get_lgm_thresh_from_t_obs (t : xr) : xr :=
  xadd (Fin 15) (xmul (Fin (75 / 1000)) (xsub t (Fin 15))).
Definition lgmarr_table_from_t_obs_kern (t : xr) (n_m : Z) : res (list xr) :=
  np_linspace LGMH_MIN (get_lgm_thresh_from_t_obs t) n_m.

(** SDU:60-62.  The name from "_lgm_" on; "subvol_" and the subvolume come before. *)
Definition bin_suffix (lgm_obs t_obs : xr) (censat : str) : str :=
  lit "_lgm_" ++ format_2f lgm_obs ++ lit "_t_" ++ format_2f t_obs ++ lit "_mah_params." ++ censat ++
  lit ".txt".
Definition get_subvol_bnpat (subvol : Z) (lgm_obs t_obs : xr) (censat : str) : str :=
  lit "subvol_" ++ str_of_int subvol ++ bin_suffix lgm_obs t_obs censat.

(** SDU:65-67 *)
Definition get_output_drn (drn : str) (n_lgm n_t istart iend : Z) : str :=
  drn ++ lit "/NM_" ++ str_of_int n_lgm ++ lit "_NT_" ++ str_of_int n_t ++ lit "_ISTART_" ++
  str_of_int istart ++ lit "_IEND_" ++ str_of_int iend.

(** SDU:70-77 *)
Definition get_t_obs_table (t0 : xr) (n_times : Z) : res (list xr) :=
  np_linspace T_OBS_TARGET_MIN t0 n_times.
Definition get_t_table_for_t_obs (t_obs : xr) (n_times : Z) : res (list xr) :=
  np_linspace T_TABLE_MIN t_obs n_times.

(** DEFAULT_MAH_PARAMS._make: five fields, else TypeError *)
Definition make_params {A} (l : list A) : res (DiffmahParams A) :=
  match l with [a; b; c; d; e] => Ok (mkParams a b c d e) | _ => Err TypeError end.
Definition fields {A} (p : DiffmahParams A) : list A :=
  [logm0 p; logtc p; early_index p; late_index p; t_peak p].
Definition compress_params (msk : list bool) (p : DiffmahParams (list xr))
  : res (DiffmahParams (list xr)) :=
  let* cols := collect (map (compress msk) (fields p)) in make_params cols.

(** SDU:164-190.  [params] and [loss] are the columns of the fit file of the subvolume,
    [upid_history] the rows of its catalogue.  The t_peak returned beside the
    parameters is their last column. *)
Definition good_fit (loss : xr) : bool :=
  match loss with Fin r => negb (Reqb r (-1)) | _ => true end.
Definition load_diffmah_subvolume (params : DiffmahParams (list xr)) (loss : list xr)
  (upid_history : list (list Z)) : res (DiffmahParams (list xr) * list xr * list (list Z)) :=
  let msk := map good_fit loss in
  let* p := compress_params msk params in
  let* tp := compress msk (t_peak params) in
  let* upidh := compress msk upid_history in
  Ok (p, tp, upidh).

(** mah_halopop(...)[1], diffmah_kernels.py:60-86, which has three parameters *)
Definition log_mahs (p : DiffmahParams (list xr)) (tarr : list xr) (lgt0 : xr) : res arr2 :=
  match mah_halopop p tarr lgt0 with
  | Some (_, m) => Ok (mkArr2 (List.length tarr) m)
  | None => Err ValueError
  end.
(** SDU:193-197: four arguments *)
Definition get_log_mah_tables_for_t_obs (p : DiffmahParams (list xr)) (tp : list xr) (t_obs t0 : xr)
  : res (list xr * arr2) :=
  let* t_table := get_t_table_for_t_obs t_obs 2 in
  let lgt0 := nlog10 t0 in
  let* m := call 3 4 (log_mahs p t_table lgt0) in
  Ok (t_table, m).

(** SDU:200-208 *)
Definition get_target_mah_params (log_mah_table : arr2) (lgm_obs : xr) (p : DiffmahParams (list xr))
  (tp : list xr) (upid : list Z) (width : xr) : res (DiffmahParams (list xr) * list xr * list Z) :=
  let* last := column_z log_mah_table (-1) in
  let msk := map (fun x => xltb (xabs (xsub x lgm_obs)) width) last in
  let* ps := compress_params msk p in
  let* ts := compress msk tp in
  let* us := compress msk upid in
  Ok (ps, ts, us).
Definition BIN_WIDTH : xr := Fin (15 / 100).

(** np.argmin of |t_obs - t| *)
Fixpoint argmin_from (i best : nat) (vbest : xr) (l : list xr) : nat :=
  match l with
  | [] => best
  | v :: l' => if (xltb v vbest || (isnan v && negb (isnan vbest)))%bool
               then argmin_from (S i) i v l' else argmin_from (S i) best vbest l'
  end.
Definition argmin (l : list xr) : res nat :=
  match l with [] => Err ValueError | v :: l' => Ok (argmin_from 1 0 v l') end.

(** SDU:99-117 for one of the two samples: [np.array([*p, tp]).T] of the first
    N_HALOS_PER_SUBVOL masked halos *)
Definition transpose (cols : list (list xr)) (n : nat) : list (list xr) :=
  map (fun k => map (fun c => nth k c NaN) cols) (seq 0 n).
Definition sample_table (msk : list bool) (p : DiffmahParams (list xr)) (tp : list xr)
  : res (list (list xr)) :=
  let* cols := collect (map (compress msk) (fields p)) in
  let* tps := compress msk tp in
  let tps := firstn N_HALOS_PER_SUBVOL tps in
  Ok (transpose (map (firstn N_HALOS_PER_SUBVOL) cols ++ [tps]) (List.length tps)).
Definition write_sample (outdrn bn : str) (msk : list bool) (p : DiffmahParams (list xr)) (tp : list xr)
  : M unit :=
  if existsb (fun b => b) msk then
    let! rows := mlift (sample_table msk p tp) in
    savetxt (outdrn, bn) (map (map round4) rows)
  else mret tt.

(** What the subvolume loop reads from the two input directories: the fits and
    catalogue of a subvolume, and the table of times.  Either may be missing. *)
Record inputs : Type := mkInputs {
  in_subvol : Z -> res (DiffmahParams (list xr) * list xr * list (list Z));
  in_times : res (list xr)
}.

(** SDU:122-153 and the body of the loop SDU:90-117 run on each value it yields *)
Definition subvol_samples (outdrn : str) (inp : inputs) (n_m n_t subvol : Z) : M unit :=
  let! (params, loss, hist) := mlift (in_subvol inp subvol) in
  let! (p, tp, upidh) := mlift (load_diffmah_subvolume params loss hist) in
  let! t_table_smdpl := mlift (in_times inp) in
  let! t0 := mlift (last_of t_table_smdpl) in
  let! t_obs_arr := mlift (get_t_obs_table t0 n_t) in
  mfor t_obs_arr (fun t_obs =>
    let! indx_t := mlift (argmin (map (fun t => xabs (xsub t_obs t)) t_table_smdpl)) in
    let! upid := mlift (collect (map (fun r => index r indx_t) upidh)) in
    let! (_, log_mah_table) := mlift (get_log_mah_tables_for_t_obs p tp t_obs t0) in
    let! lgm_obs_arr := mlift (lgmarr_table_from_t_obs_kern t_obs n_m) in
    mfor lgm_obs_arr (fun lgm_obs =>
      let! (ps, ts, us) := mlift (get_target_mah_params log_mah_table lgm_obs p tp upid BIN_WIDTH) in
      match ts with
      | [] => mret tt
      | _ =>
          let msk_cens := map (fun u => (u =? -1)%Z) us in
          let! _ := write_sample outdrn (get_subvol_bnpat subvol lgm_obs t_obs (lit "cens"))
                      msk_cens ps ts in
          write_sample outdrn (get_subvol_bnpat subvol lgm_obs t_obs (lit "sats"))
            (map negb msk_cens) ps ts
      end)).

(** SDU:228-244 and 246-262: one bin, centrals or satellites *)
Definition collate_bin (drn drnout : str) (lgm_obs t_obs : xr) (censat : str) : M unit :=
  let! bnlist := mlook (dglob drn (lit "subvol_") (bin_suffix lgm_obs t_obs censat)) in
  let! collector := mmap (fun bn =>
    let! x := mlook (fun d => let* l := loadtxt d (drn, bn) in reshape6 l) in mlift x) bnlist in
  match bnlist with
  | [] => mret tt
  | bn :: _ =>
      let bnout := join_on "_"%char (skipn 2 (split_on "_"%char bn)) in
      np_save drnout (remove_from (lit ".txt") 0 bnout) (mkArr2 6 (concat collector))
  end.

(** SDU:264-269: "rm drn/subvol_{0..9}*" *)
Definition remove_samples (drn : str) : M unit :=
  mfor (zrange 0 10) (fun subvol =>
    let! bns := mlook (dglob drn (lit "subvol_" ++ str_of_int subvol) []) in
    mfor bns (fun bn => mact (ddel (drn, bn)))).

(** SDU:217-269.  os.makedirs raises FileExistsError on an existing directory. *)
Definition collate_subvolume_samples (drn : str) (t0 : xr) (n_m n_t istart iend : Z) : M unit :=
  let! t_obs_arr := mlift (get_t_obs_table t0 n_t) in
  let drnout := get_output_drn drn n_m n_t istart iend in
  let! present := mlook (fun d => existsb (eqb_str drnout) (ddirs d)) in
  if present then mlift (Err OSError) else
  let! _ := mact (fun d => mkDisk (dfiles d) (drnout :: ddirs d)) in
  let! _ := mfor t_obs_arr (fun t_obs =>
    let! lgm_obs_arr := mlift (lgmarr_table_from_t_obs_kern t_obs n_m) in
    mfor lgm_obs_arr (fun lgm_obs =>
      let! _ := collate_bin drn drnout lgm_obs t_obs (lit "cens") in
      collate_bin drn drnout lgm_obs t_obs (lit "sats"))) in
  remove_samples drn.

(** SDU:80-119 and measure_smdpl_diffmahpop.py *)
Definition smdpl_diffmahpop_subvolume_loop (outdrn : str) (inp : inputs) (istart iend n_m n_t : Z)
  : M unit :=
  let! _ := mfor (zrange istart iend) (subvol_samples outdrn inp n_m n_t) in
  collate_subvolume_samples outdrn T0_SMDPL n_m n_t istart iend.

(** SDU:290-318 and 320-346, one list of files *)
Definition np_rows (l : list (list xr)) : dset :=
  match l with [] => D1 [] | r :: _ => D2 (mkArr2 (List.length r) l) end.
Definition target_row : Type := xr * xr * list xr * list xr * list xr * list xr.
Definition tabulate_file (d : disk) (drn : str) (nh_min n_t_target : Z) (rescale : bool)
  (f : str * xr * xr) : res (list target_row) :=
  let '(bn, lgm_obs, t_obs) := f in
  let* a := np_load d (drn, bn) in
  let* rows := reshape6 (concat (rows2 a)) in
  let* t_table := get_t_table_for_t_obs t_obs n_t_target in
  if (nh_min <? Z.of_nat (List.length rows))%Z then
    let data := mkArr2 6 rows in
    let tp := column2 data 4 in
    let* p := make_params (map (column2 data) (seq 0 5)) in
    let* m := call 3 4 (log_mahs p t_table (nlog10 T0_SMDPL)) in
    let* m := if rescale
              then let* r := collect (map (fun row => rescale_target_log_mah row lgm_obs) (rows2 m)) in
                   Ok (mkArr2 (width m) r)
              else Ok m in
    Ok [(lgm_obs, t_obs, axis0 xmean m, axis0 xstd m,
         map (fun t => xmean (map (fun p => if xltb p t then Fin 1 else Fin 0) tp)) t_table, t_table)]
  else Ok [].
Definition tabulate_list (d : disk) (drn : str) (nh_min n_t_target : Z) (rescale : bool)
  (files : list (str * xr * xr)) : res targets :=
  let* c := collect (map (tabulate_file d drn nh_min n_t_target rescale) files) in
  let c := concat c in
  Ok (mkTargets
        (map (fun x => let '(l, _, _, _, _, _) := x in l) c)
        (map (fun x => let '(_, t, _, _, _, _) := x in t) c)
        (np_rows (map (fun x => let '(_, _, m, _, _, _) := x in m) c))
        (np_rows (map (fun x => let '(_, _, _, s, _, _) := x in s) c))
        (np_rows (map (fun x => let '(_, _, _, _, f, _) := x in f) c))
        (np_rows (map (fun x => let '(_, _, _, _, _, t) := x in t) c))).
(** SDU:278-288.  [pyfloat] is float(str). *)
Definition name_numbers (pyfloat : str -> res xr) (bns : list str) : res (list (str * xr * xr)) :=
  let word k bn := let* w := index (split_on "_"%char bn) k in pyfloat w in
  let* lgms := collect (map (word 1%nat) bns) in
  let* ts := collect (map (word 3%nat) bns) in
  Ok (combine (combine bns lgms) ts).
(** SDU:272-348 *)
Definition tabulate_target_means_vars (pyfloat : str -> res xr) (d : disk) (drn : str)
  (nh_min n_t_target : Z) (rescale : bool) : res (targets * targets) :=
  let* cens := name_numbers pyfloat (dglob drn [] (lit "cens.npy") d) in
  let* sats := name_numbers pyfloat (dglob drn [] (lit "sats.npy") d) in
  let* cen := tabulate_list d drn nh_min n_t_target rescale cens in
  let* sat := tabulate_list d drn nh_min n_t_target rescale sats in
  Ok (cen, sat).
(** SDU:351-363 (NH_CUT = 100, SDU:6) *)
Definition write_mean_variance_to_disk (pyfloat : str -> res xr) (drn : str) (fnout_cens fnout_sats : path)
  : M unit :=
  let! r := mlook (fun d => tabulate_target_means_vars pyfloat d drn 100 25 true) in
  let! (cen, sat) := mlift r in
  let! _ := mact (dput fnout_cens Other) in
  let! _ := mact (dput fnout_cens (Hdf cen)) in
  let! _ := mact (dput fnout_sats Other) in
  mact (dput fnout_sats (Hdf sat)).

(** ** LDF *)

(** LDF:16 *)
Definition TASSO_DRN : str :=
  lit "/Users/aphearin/work/DATA/diffmahpop_data/NM_12_NT_9_ISTART_0_IEND_576".
(** LDF:19-20 *)
Definition sample_name (censat : str) (lgm_obs t_obs : xr) : str :=
  lit "lgm_" ++ format_2f lgm_obs ++ lit "_t_" ++ format_2f t_obs ++ lit "_mah_params." ++ censat ++
  lit ".npy".

(** LDF:47-50 on a table column *)
Definition rescale_target_log_mahs (log_mah_table : dset) (lgm_obs : list xr) : res (list (list xr)) :=
  match log_mah_table with
  | D1 _ => Err IndexError
  | D2 a =>
      let* _ := column_z a (-1) in
      collect (map (fun rl => rescale_target_log_mah (fst rl) (snd rl)) (combine (rows2 a) lgm_obs))
  end.

(** LDF:62-63: Table refuses columns of different lengths. *)
Definition load_table (d : disk) (drn bn : str) : res targets :=
  match dfind d (drn, bn) with
  | Some (Hdf t) =>
      let n := List.length (tg_lgm_obs t) in
      if (Nat.eqb (List.length (tg_t_obs t)) n && Nat.eqb (dlen (tg_mean_log_mah t)) n &&
          Nat.eqb (dlen (tg_std_log_mah t)) n && Nat.eqb (dlen (tg_frac_peaked t)) n &&
          Nat.eqb (dlen (tg_t_table t)) n)%bool
      then Ok t else Err ValueError
  | Some _ => Err KeyError
  | None => Err OSError
  end.
(** LDF:61-70 *)
Definition load_diffmahpop_mu_var_targets (d : disk) (drn : str) : res (targets * targets) :=
  let* cen := load_table d drn (lit "mean_var_cens.h5") in
  let* sat := load_table d drn (lit "mean_var_sats.h5") in
  let* _ := rescale_target_log_mahs (tg_mean_log_mah cen) (tg_lgm_obs cen) in
  let* _ := rescale_target_log_mahs (tg_mean_log_mah sat) (tg_lgm_obs sat) in
  Ok (cen, sat).

(** LDF:73-95 for one table *)
Definition n_samples (d : disk) (censat : str) (t : targets) : res (list nat) :=
  collect (map (fun lt =>
    let* a := np_load d (TASSO_DRN, sample_name censat (fst lt) (snd lt)) in
    Ok (List.length (rows2 a))) (combine (tg_lgm_obs t) (tg_t_obs t))).

(** One row of the loaded table: its mass and time, its sample count, parameters
    (five columns) and histories.  The other columns are copied unchanged. *)
Record loaded : Type := mkLoaded {
  ld_lgm_obs : xr;
  ld_t_obs : xr;
  ld_n_samples : nat;
  ld_samples : list (list xr);
  ld_log_mah : list (list xr);
  ld_log_mah_rescaled : list (list xr)
}.

(** LDF:108-119 for one table: the rows kept *)
Definition keep_rows (t : targets) (ns : list nat) (t_obs_min lgm_obs_max : xr) (n_sample_min : nat)
  : list (xr * xr * nat * nat) :=
  let rows := combine (combine (combine (tg_lgm_obs t) (tg_t_obs t)) ns) (seq 0 (List.length ns)) in
  filter (fun r => let '(l, to, n, _) := r in
    (xltb t_obs_min to && xltb l lgm_obs_max && Nat.leb n_sample_min n)%bool) rows.

(** LDF:136-166 for one row.  [choice n] is what np.random.choice returns. *)
Definition draw_row (d : disk) (drn censat : str) (n_sample_min : nat) (choice : nat -> list nat)
  (r : xr * xr * nat * nat) : res (list (list xr)) :=
  let '(l, t, _, _) := r in
  let* a := np_load d (drn, sample_name censat l t) in
  if Nat.leb n_sample_min (List.length (rows2 a)) then
    let* rows := collect (map (index (rows2 a)) (choice (List.length (rows2 a)))) in
    collect (map (fun j => if Nat.ltb j (width a) then Ok (map (fun row => nth j row NaN) rows)
                           else Err IndexError) (seq 0 5))
  else Err AssertionError.

(** LDF:168-208 for one row: four of the five parameters, and four arguments *)
Definition history_row (t_table : list (list xr)) (rs : (xr * xr * nat * nat) * list (list xr)) : res loaded :=
  let '((l, t, n, i), cols) := rs in
  let* p := make_params (firstn 4 cols) in
  let* ts := index t_table i in
  let* m := call 3 4 (log_mahs p ts (nlog10 (Fin (1379 / 100)))) in
  let* resc := collect (map (fun row => rescale_target_log_mah row l) (rows2 m)) in
  Ok (mkLoaded l t n cols (rows2 m) resc).

Definition dset_rows (x : dset) : res (list (list xr)) :=
  match x with D1 _ => Err IndexError | D2 a => Ok (rows2 a) end.

(** LDF:23-44, with LDF:98-210.  [choice k n] is the k-th sample drawn. *)
Definition load_diffmahpop_targets (d : disk) (drn : str) (t_obs_min_cen t_obs_min_sat lgm_obs_max_cen
  lgm_obs_max_sat : xr) (n_sample_min : nat) (choice : nat -> nat -> list nat)
  : res (list loaded * list loaded) :=
  let* (cen, sat) := load_diffmahpop_mu_var_targets d drn in
  let* ncen := n_samples d (lit "cens") cen in
  let* nsat := n_samples d (lit "sats") sat in
  let cens := keep_rows cen ncen t_obs_min_cen lgm_obs_max_cen n_sample_min in
  let sats := keep_rows sat nsat t_obs_min_sat lgm_obs_max_sat n_sample_min in
  let* scen := collect (map (fun rk => draw_row d drn (lit "cens") n_sample_min (choice (snd rk)) (fst rk))
                 (combine cens (seq 0 (List.length cens)))) in
  let* ssat := collect (map (fun rk => draw_row d drn (lit "sats") n_sample_min
                                          (choice (List.length cens + snd rk)) (fst rk))
                 (combine sats (seq 0 (List.length sats)))) in
  let* tcen := dset_rows (tg_t_table cen) in
  let* lcen := collect (map (history_row tcen) (combine cens scen)) in
  let* tsat := match sats with [] => Ok [] | _ => dset_rows (tg_t_table sat) end in
  let* lsat := collect (map (history_row tsat) (combine sats ssat)) in
  Ok (lcen, lsat).
