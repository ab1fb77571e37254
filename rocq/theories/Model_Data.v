(** Model of the data loaders, the HDF5 utilities and the measurement of target
    data.  The contents of the simulation files, haccytrees and umachine_pyio
    are inputs; numbers are extended reals. *)

From Coq Require Import Reals String List ZArith Bool Ascii.
From Verif Require Import Model_Num Model_Base Model_Fitter Model_Utils.
Import ListNotations.
Local Open Scope R_scope.

(** ** numpy *)

(** np.array_split(x, k) along axis 0 (external, numpy/lib/shape_base.py): the
    section sizes, their cumulative sums and the slices between them. *)
Definition section_sizes (n k : nat) : list nat :=
  (repeat (n / k + 1) (n mod k) ++ repeat (n / k) (k - n mod k))%nat%list.
Fixpoint div_points (acc : nat) (sizes : list nat) : list nat :=
  match sizes with
  | [] => [acc]
  | s :: sizes' => acc :: div_points (acc + s)%nat sizes'
  end.
Definition slice {A} (st en : nat) (l : list A) : list A := firstn (en - st) (skipn st l).
Definition array_split {A} (l : list A) (k : nat) : res (list (list A)) :=
  match k with
  | O => Err ValueError
  | _ => let d := div_points 0 (section_sizes (List.length l) k) in
         Ok (map (fun i => slice (nth i d 0%nat) (nth (i + 1) d 0%nat) l) (seq 0 k))
  end.

(** x[indx] for an array of non-negative integers *)
Fixpoint take {A} (l : list A) (indx : list nat) : res (list A) :=
  match indx with
  | [] => Ok []
  | i :: indx' =>
      match nth_error l i with
      | Some a => let* r := take l indx' in Ok (a :: r)
      | None => Err IndexError
      end
  end.

(** A 2-d array: the number of columns and the rows. *)
Record arr2 : Type := mkArr2 { width : nat; rows2 : list (list xr) }.
(** x[:, j] for a valid j *)
Definition column2 (a : arr2) (j : nat) : list xr := map (fun r => nth j r NaN) (rows2 a).
(** x[:, j] for a Python integer *)
Definition column_z (a : arr2) (j : Z) : res (list xr) :=
  let j := (if j <? 0 then Z.of_nat (width a) + j else j)%Z in
  if ((0 <=? j) && (j <? Z.of_nat (width a)))%Z%bool
  then Ok (column2 a (Z.to_nat j)) else Err IndexError.

(** np.mean and np.std of a 1-d array *)
Definition xmean (l : list xr) : xr := xdiv (xsum l) (Fin (INR (List.length l))).
Definition xstd (l : list xr) : xr :=
  let m := xmean l in
  xsqrt (xmean (map (fun x => let d := xsub x m in xmul d d) l)).
Definition xabs (x : xr) : xr := match x with Fin r => Fin (Rabs r) | NaN => NaN | _ => PInf end.
Definition isnan (x : xr) : bool := match x with NaN => true | _ => false end.
(** np.minimum: NaN propagates *)
Definition xmin (x y : xr) : xr :=
  match x, y with NaN, _ | _, NaN => NaN | _, _ => if xltb y x then y else x end.

(** np.sort: NaN at the end *)
Fixpoint insert_x (x : xr) (l : list xr) : list xr :=
  match l with
  | [] => [x]
  | y :: l' => if (xltb x y || xeqb x y || isnan y)%bool then x :: y :: l' else y :: insert_x x l'
  end.
Definition sort_x (l : list xr) : list xr := fold_right insert_x [] l.

(** range(lo, hi) *)
Definition zrange (lo hi : Z) : list Z := map (fun k => lo + Z.of_nat k)%Z (seq 0 (Z.to_nat (hi - lo))).

(** np.interp(x, xp, fp) of numpy's compiled_base.c for increasing [xp] and a
    scalar [x].  [j] is the last index with xp[j] <= x. *)
Definition np_interp (x : xr) (xp fp : list xr) : res xr :=
  match xp, Nat.eqb (List.length xp) (List.length fp) with
  | [], _ => Err ValueError
  | _, false => Err ValueError
  | x0 :: _, true =>
      let n := List.length xp in
      let at_ l k := nth k l NaN in
      let j := (List.length (filter (fun v => xleb v x) xp) - 1)%nat in
      Ok (if Nat.eqb n 1 then at_ fp 0%nat
          else if isnan x then NaN
          else if xltb x x0 then at_ fp 0%nat
          else if xltb (at_ xp (n - 1)%nat) x then at_ fp (n - 1)%nat
          else if Nat.eqb j (n - 1) then at_ fp j
          else if xeqb (at_ xp j) x then at_ fp j
          else
            let slope := xdiv (xsub (at_ fp (j + 1)%nat) (at_ fp j)) (xsub (at_ xp (j + 1)%nat) (at_ xp j)) in
            let r := xadd (xmul slope (xsub x (at_ xp j))) (at_ fp j) in
            if isnan r then
              let r := xadd (xmul slope (xsub x (at_ xp (j + 1)%nat))) (at_ fp (j + 1)%nat) in
              if (isnan r && xeqb (at_ fp j) (at_ fp (j + 1)%nat))%bool then at_ fp j else r
            else r)
  end.
Fixpoint np_interps (xs xp fp : list xr) : res (list xr) :=
  match xs with
  | [] => Ok []
  | x :: xs' => let* y := np_interp x xp fp in let* ys := np_interps xs' xp fp in Ok (y :: ys)
  end.

(** ** fitting_helpers/measure_mahs.py *)

(** scipy.stats.mstats.trimr(a, limits=(lim, lim)) (external): what is left after
    masking the int(lim*n) smallest and the int(lim*n) largest values. *)
Definition trimr (lim : R) (a : list xr) : res (list xr) :=
  if (Rltb 1 lim || Rltb lim 0)%bool then Err ValueError
  else
    let n := List.length a in
    let k := Z.to_nat (Int_part (lim * INR n)) in
    Ok (firstn (n - k - k) (skipn k (sort_x a))).
(** scipy.stats.mstats.trimmed_mean and trimmed_std (ddof=0).  With nothing left
    scipy returns [masked]; here NaN. *)
Definition trimmed_mean_ms (lim : R) (a : list xr) : res xr := let* k := trimr lim a in Ok (xmean k).
Definition trimmed_std_ms (lim : R) (a : list xr) : res xr := let* k := trimr lim a in Ok (xstd k).

(** x - x[:, -1].reshape((-1, 1)) + logmp *)
Definition rescale_last (a : arr2) (logmp : xr) : arr2 :=
  mkArr2 (width a)
    (map (fun r => map (fun x => xadd (xsub x (nth (width a - 1) r NaN)) logmp) r) (rows2 a)).

(** :30-35, the body of the loop *)
Definition clean_step (scaled : arr2) (lim : R) (z_cut : xr) (mask : list bool) (it : Z)
  : res (list bool) :=
  let* log_mah_at_t := column_z scaled it in
  let* mu_t := trimmed_mean_ms lim log_mah_at_t in
  let* std_t := trimmed_std_ms lim log_mah_at_t in
  let z_score := map (fun x => xdiv (xsub x mu_t) std_t) log_mah_at_t in
  Ok (map (fun mz => (fst mz && xltb (xabs (snd mz)) z_cut)%bool) (combine mask z_score)).

Fixpoint fold_res {A S} (f : S -> A -> res S) (s : S) (l : list A) : res S :=
  match l with [] => Ok s | a :: l' => let* s' := f s a in fold_res f s' l' end.

(** :7-36 *)
Definition get_clean_sample_mask (log_mah_fit : arr2) (logmp_sample : xr) (it_min : Z) (lim : R)
  (z_cut : xr) : res (list bool) :=
  match width log_mah_fit with
  | O => Err IndexError
  | _ =>
      let log_mah_scaled := rescale_last log_mah_fit logmp_sample in
      fold_res (clean_step log_mah_scaled lim z_cut) (repeat true (List.length (rows2 log_mah_fit)))
        (zrange it_min (Z.of_nat (width log_mah_fit) - 1))
  end.

(** np.f(x, axis=0) *)
Definition axis0 (f : list xr -> xr) (a : arr2) : list xr := map (fun j => f (column2 a j)) (seq 0 (width a)).

(** :71-73: [mp * x / mah0] row by row *)
Definition rescale_mass (mp : xr) (mah a : arr2) : arr2 :=
  mkArr2 (width a)
    (map (fun rx => map (fun x => xdiv (xmul mp x) (nth (width mah - 1) (fst rx) NaN)) (snd rx))
       (combine (rows2 mah) (rows2 a))).
Definition log_arr (a : arr2) : arr2 := mkArr2 (width a) (map (map nlog10) (rows2 a)).
Definition sqr (x : xr) : xr := xmul x x.

(** :39-90.  [mah] and [dmhdt] have the same shape.  Returns mean_mah,
    mean_log_mah, var_log_mah, mean_dmhdt, var_dmhdt. *)
Definition measure_target_data (mah dmhdt : arr2) (lgt lgt_target : list xr) (logmp_sample : xr)
  : res (list xr * list xr * list xr * list xr * list xr) :=
  match width mah with
  | O => Err IndexError
  | _ =>
      let mp_sample := npow10 logmp_sample in
      let scaled_mah := rescale_mass mp_sample mah mah in
      let scaled_dmhdt := rescale_mass mp_sample mah dmhdt in
      let mean_mah_table := axis0 xmean scaled_mah in
      let mean_log_mah_table := axis0 xmean (log_arr scaled_mah) in
      let std_log_mah_table := axis0 xstd (log_arr scaled_mah) in
      let mean_dmhdt_table := axis0 xmean scaled_dmhdt in
      let std_dmhdt_table := axis0 xstd scaled_dmhdt in
      let* a := np_interps lgt_target lgt (map nlog10 mean_mah_table) in
      let* b := np_interps lgt_target lgt (map nlog10 mean_log_mah_table) in
      let* c := np_interps lgt_target lgt (map nlog10 mean_dmhdt_table) in
      let* d := np_interps lgt_target lgt (map nlog10 std_dmhdt_table) in
      let* std_log_mah := np_interps lgt_target lgt std_log_mah_table in
      let mean_mah := map npow10 a in
      let mean_log_mah := map npow10 b in
      let mean_dmhdt := map npow10 c in
      let std_dmhdt := map npow10 d in
      let var_dmhdt := map sqr std_dmhdt in
      let var_log_mah := map sqr std_log_mah in
      Ok (mean_mah, mean_log_mah, var_log_mah, mean_dmhdt, var_dmhdt)
  end.

(** diffmahpop_kernels/load_diffmahpop_fitdata.py:47-50 for one row of the table
    and its lgm_obs *)
Definition rescale_target_log_mah (row : list xr) (lgm_obs : xr) : res (list xr) :=
  let* last := getlast row in
  let delta := xsub last lgm_obs in
  Ok (map (fun x => xsub x delta) row).

(** ** Loaders of mass histories *)

(** data_loaders/load_hacc_mahs.py:114-123: the histories read from the forest
    become cumulative peak masses in Msun. *)
Definition hacc_mahs (forest_mass : list (list xr)) (h : xr) : list (list xr) :=
  let mahs := map maximum_accumulate forest_mass in
  map (map (fun m => xdiv m h)) mahs.

(** data_loaders/load_bpl_um_data.py:62-89.  [t_table] is the table of ages
    computed by dsps. *)
Definition BPL_MAH_FIT_LGMIN : xr := Fin 10.
Definition load_bpl_mah_data (halo_id : list Z) (mpeak : list (list xr)) (t_table : list xr)
  : res (list Z * list (list xr) * list xr * xr * xr) :=
  let mpeak := map maximum_accumulate mpeak in
  let mpeak := map (map (fun m => xmin (xmax m (Fin 1)) PInf)) mpeak in
  let* t0 := getlast t_table in
  let lgt0 := nlog10 t0 in
  Ok (halo_id, mpeak, t_table, BPL_MAH_FIT_LGMIN, lgt0).

(** data_loaders/load_tng_mahs.py:10-19.  np.max of an empty array raises
    ValueError. *)
Definition H_TNG : R := 6774 / 10000.
Definition tng_mass (lgm : xr) : xr :=
  xmul (if xeqb lgm (Fin 0) then Fin 0 else npow10 lgm) (Fin (1 / H_TNG)).
Definition load_tng_mahs (mpeakh : list (list xr)) : res (list (list xr)) :=
  let log_mahs := map maximum_accumulate mpeakh in
  let mahs := map (map tng_mass) log_mahs in
  match concat mahs with
  | [] => Err ValueError
  | m :: ms => if xltb (Fin 100000) (fold_left xmax ms m) then Ok mahs else Err AssertionError
  end.

(** data_loaders/load_diffmah_pub_data.py:28-32 and 44-47 (also
    scripts/fitting_scripts/load_mah_data.py:28-32 and 44-47): one history. *)
Definition pub_log_mah (mpeak_history : list xr) : list xr :=
  map (fun m => if xeqb m (Fin 0) then Fin 0 else nlog10 m) (maximum_accumulate mpeak_history).

(** ** data_loaders/io_utils.py *)

(** An HDF5 object with data of type [V]: a group of named members, a dataset
    with rows, or a scalar dataset.  Members are listed in the order of
    h5py's keys(). *)
Inductive h5 (V : Type) : Type :=
| Group (members : list (string * h5 V))
| Rows (l : list V)
| Scalar (v : V).
Arguments Group {V} _.
Arguments Rows {V} _.
Arguments Scalar {V} _.

(** dict: lookup and d[k] = v *)
Fixpoint lookup {V} (k : string) (d : list (string * V)) : option V :=
  match d with
  | [] => None
  | (k', v) :: d' => if String.eqb k' k then Some v else lookup k d'
  end.
Fixpoint dict_set {V} (d : list (string * V)) (k : string) (v : V) : list (string * V) :=
  match d with
  | [] => [(k, v)]
  | (k', v') :: d' => if String.eqb k' k then (k, v) :: d' else (k', v') :: dict_set d' k v
  end.

(** s.split("/") *)
Fixpoint split_slash_from (cur s : string) : list string :=
  match s with
  | EmptyString => [cur]
  | String c s' =>
      if Ascii.eqb c "/" then cur :: split_slash_from "" s'
      else split_slash_from (cur ++ String c "") s'
  end.
Definition split_slash (s : string) : list string := split_slash_from "" s.

(** hdf[path] of h5py (external): follow the non-empty components. *)
Fixpoint h5_walk {V} (o : h5 V) (path : list string) : res (h5 V) :=
  match path with
  | [] => Ok o
  | "" :: path' => h5_walk o path'
  | k :: path' =>
      match o with
      | Group ms => match lookup k ms with Some o' => h5_walk o' path' | None => Err KeyError end
      | _ => Err KeyError
      end
  end%string.
Definition h5_get {V} (o : h5 V) (path : string) : res (h5 V) := h5_walk o (split_slash path).

(** list(x.keys()); only groups have keys *)
Definition h5_keys {V} (o : h5 V) : res (list string) :=
  match o with Group ms => Ok (map fst ms) | _ => Err AttributeError end.

(** slice.indices(n): the bounds of x[istart:iend] *)
Definition slice_bound (n i : Z) : nat := Z.to_nat (if (i <? 0)%Z then Z.max 0 (n + i) else Z.min n i).
Definition py_slice {A} (istart : Z) (iend : option Z) (l : list A) : list A :=
  let n := Z.of_nat (List.length l) in
  slice (slice_bound n istart) (slice_bound n (match iend with Some e => e | None => n end)) l.

(** x[istart:iend] of an HDF5 object: a group refuses slices with TypeError, a
    scalar dataset with ValueError. *)
Definition h5_slice {V} (istart : Z) (iend : option Z) (o : h5 V) : res (list V) :=
  match o with
  | Rows l => Ok (py_slice istart iend l)
  | Group _ => Err TypeError
  | Scalar _ => Err ValueError
  end.

(** io_utils.py:17-68 on an open file *)
Definition load_flat_hdf5 {V} (hdf : h5 V) (istart : Z) (iend : option Z) (keys : option (list string))
  (dataset : option string) : res (list (string * list V)) :=
  let* keys_in :=
    match dataset, keys with
    | None, None => h5_keys hdf
    | None, Some ks => Ok ks
    | Some d, None => let* o := h5_get hdf d in let* ks := h5_keys o in Ok (map (fun k => d ++ "/" ++ k)%string ks)
    | Some d, Some ks => Ok (map (fun k => d ++ "/" ++ k)%string ks)
    end in
  fold_res
    (fun data key_in =>
       let* key_out :=
         match dataset with
         | None => Ok key_in
         | Some _ => match nth_error (split_slash key_in) 1 with Some k => Ok k | None => Err IndexError end
         end in
       let* o := h5_get hdf key_in in
       let* v := h5_slice istart iend o in
       Ok (dict_set data key_out v))
    [] keys_in.

(** A namedtuple instance: its field names and its values. *)
Record named (V : Type) : Type := mkNamed { _fields : list string; nvalues : list V }.
Arguments mkNamed {V} _ _.
Arguments _fields {V} _.
Arguments nvalues {V} _.

(** A file written by h5py: its datasets and the attribute "_fields". *)
Record h5file (V : Type) : Type := mkH5 { datasets : list (string * V); attr_fields : option (list string) }.
Arguments mkH5 {V} _ _.
Arguments datasets {V} _.
Arguments attr_fields {V} _.
Definition disk (V : Type) := string -> option (h5file V).
Definition save {V : Type} (fs : disk V) (fn : string) (f : h5file V) : disk V :=
  fun n => if String.eqb n fn then Some f else fs n.

Definition char_between (lo hi : nat) (c : ascii) : bool :=
  (Nat.leb lo (nat_of_ascii c) && Nat.leb (nat_of_ascii c) hi)%bool.
Definition is_letter (c : ascii) : bool := (char_between 65 90 c || char_between 97 122 c)%bool.
Definition is_word (c : ascii) : bool := (is_letter c || char_between 48 57 c || Ascii.eqb c "_")%bool.
Fixpoint all_chars (p : ascii -> bool) (s : string) : bool :=
  match s with EmptyString => true | String c s' => (p c && all_chars p s')%bool end.
Definition KEYWORDS : list string :=
  ["False"; "None"; "True"; "and"; "as"; "assert"; "async"; "await"; "break"; "class"; "continue";
   "def"; "del"; "elif"; "else"; "except"; "finally"; "for"; "from"; "global"; "if"; "import"; "in";
   "is"; "lambda"; "nonlocal"; "not"; "or"; "pass"; "raise"; "return"; "try"; "while"; "with";
   "yield"]%string.
(** What collections.namedtuple accepts as a field name, restricted to ASCII. *)
Definition is_field_name (s : string) : bool :=
  match s with
  | EmptyString => false
  | String c s' => (is_letter c && all_chars is_word s' && negb (existsb (String.eqb s) KEYWORDS))%bool
  end.
Fixpoint distinct (l : list string) : bool :=
  match l with [] => true | s :: l' => (negb (existsb (String.eqb s) l') && distinct l')%bool end.

(** namedtuple("Params", pnames)( *values): a bad name is a ValueError, a wrong
    number of values a TypeError. *)
Definition namedtuple {V} (pnames : list string) (values : list V) : res (named V) :=
  if (forallb is_field_name pnames && distinct pnames)%bool
  then if Nat.eqb (List.length pnames) (List.length values) then Ok (mkNamed pnames values) else Err TypeError
  else Err ValueError.

(** hdf[pname] = pval: an existing name is refused *)
Definition create_dataset {V} (d : list (string * V)) (kv : string * V) : res (list (string * V)) :=
  match lookup (fst kv) d with
  | Some _ => Err ValueError
  | None => Ok (d ++ [kv])%list
  end.
Definition is_ascii (c : ascii) : bool := Nat.leb (nat_of_ascii c) 127.

(** io_utils.py:71-76.  The file is truncated when it is opened; np.array with
    dtype "S" refuses non-ASCII names, after the datasets have been written.  The
    partial contents left by a repeated name are not modelled. *)
Definition write_namedtuple_to_hdf5 {V} (fs : disk V) (p : named V) (fn_out : string) : disk V * res unit :=
  match fold_res create_dataset [] (combine (_fields p) (nvalues p)) with
  | Err e => (save fs fn_out (mkH5 [] None), Err e)
  | Ok d =>
      if forallb (all_chars is_ascii) (_fields p)
      then (save fs fn_out (mkH5 d (Some (_fields p))), Ok tt)
      else (save fs fn_out (mkH5 d None), Err ValueError)
  end.

(** io_utils.py:79-88.  Opening a missing file raises FileNotFoundError, here
    KeyError. *)
Definition load_namedtuple_from_hdf5 {V} (fs : disk V) (fn : string) : res (named V) :=
  match fs fn with
  | None => Err KeyError
  | Some f =>
      match attr_fields f with
      | None => Err KeyError
      | Some pnames =>
          let* values :=
            fold_res (fun vs pname => match lookup pname (datasets f) with
                                      | Some v => Ok (vs ++ [v])%list
                                      | None => Err KeyError
                                      end) [] pnames in
          namedtuple pnames values
      end
  end.
