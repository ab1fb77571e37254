(** Model of the text and HDF5 output of diffmah_fitter_helpers.py, at the level
    of characters.  A Python str is a list of ASCII characters. *)

From Coq Require Import Reals List ZArith Bool Ascii String.
From Verif Require Import Model_Num Model_Base Model_Kernels Model_Adam Model_Fitter.
Import ListNotations.
Local Open Scope R_scope.

Definition str := list ascii.
Definition lit (s : string) : str := list_ascii_of_string s.

(** ** Python builtins used by the code *)

(** str.isspace for ASCII: space, \t \n \v \f \r *)
Definition is_space (c : ascii) : bool :=
  let n := nat_of_ascii c in (Nat.eqb n 32 || (Nat.leb 9 n && Nat.leb n 13))%bool.

(** s.split(): maximal runs of non-space characters. *)
Fixpoint split_from (cur : str) (s : str) : list str :=
  match s with
  | [] => match cur with [] => [] | _ => [rev cur] end
  | c :: s' =>
      if is_space c
      then match cur with [] => split_from [] s' | _ => rev cur :: split_from [] s' end
      else split_from (c :: cur) s'
  end.
Definition split (s : str) : list str := split_from [] s.

(** s.strip() *)
Fixpoint lstrip (s : str) : str :=
  match s with c :: s' => if is_space c then lstrip s' else s | [] => [] end.
Definition strip (s : str) : str := rev (lstrip (rev (lstrip s))).

(** " ".join(l) *)
Fixpoint join (l : list str) : str :=
  match l with
  | [] => []
  | [s] => s
  | s :: l' => s ++ " "%char :: join l'
  end.

Definition digit_char (d : Z) : ascii := ascii_of_nat (48 + Z.to_nat d).
Definition char_digit (c : ascii) : option Z :=
  let n := nat_of_ascii c in
  if (Nat.leb 48 n && Nat.leb n 57)%bool then Some (Z.of_nat n - 48)%Z else None.

(** Decimal digits of a non-negative integer, most significant first. *)
Fixpoint digits_fuel (fuel : nat) (n : Z) : list Z :=
  match fuel with
  | O => [n]
  | S f => if (n <? 10)%Z then [n] else digits_fuel f (n / 10) ++ [(n mod 10)%Z]
  end.
Definition digits (n : Z) : list Z := digits_fuel (Z.to_nat n) n.
(** The last [w] decimal digits. *)
Fixpoint fixed_digits (w : nat) (n : Z) : list Z :=
  match w with
  | O => []
  | S w' => fixed_digits w' (n / 10) ++ [(n mod 10)%Z]
  end.
Definition value_of (ds : list Z) : Z := fold_left (fun a d => (10 * a + d)%Z) ds 0%Z.

(** str(n) for a Python int *)
Definition str_of_int (n : Z) : str :=
  if (n <? 0)%Z then "-"%char :: map digit_char (digits (- n)) else map digit_char (digits n).

(** Nearest integer, ties to even. *)
Definition round_half_even (x : R) : Z :=
  let f := Int_part x in
  let d := x - IZR f in
  if Rlt_dec d (1 / 2) then f
  else if Rlt_dec (1 / 2) d then (f + 1)%Z
  else if Z.even f then f else (f + 1)%Z.

(** The six digits and the decimal exponent of "{:.5e}" for a number > 0:
    correctly rounded, ties to even, as CPython's dtoa does. *)
Definition sci_digits (x : R) : Z * Z :=
  let e := Int_part (log10 x) in
  let m := round_half_even (x / powerRZ 10 (e - 5)) in
  if (m =? 1000000)%Z then (100000%Z, (e + 1)%Z) else (m, e).

(** Exponent field: sign and at least two digits. *)
Definition exp_field (e : Z) : str :=
  (if (e <? 0)%Z then "-"%char else "+"%char) ::
  let a := Z.abs e in
  if (a <? 100)%Z then map digit_char (fixed_digits 2 a) else map digit_char (digits a).

Definition sci_chars (m e : Z) : str :=
  match map digit_char (fixed_digits 6 m) with
  | d0 :: ds => d0 :: "."%char :: ds ++ "e"%char :: exp_field e
  | [] => []
  end.

(** "{:.5e}".format(float(x)).  The sign of a zero is not modelled. *)
Definition format_5e (x : xr) : str :=
  match x with
  | NaN => lit "nan"
  | PInf => lit "inf"
  | MInf => lit "-inf"
  | Fin r =>
      if Rlt_dec r 0 then let (m, e) := sci_digits (- r) in "-"%char :: sci_chars m e
      else if Rlt_dec 0 r then let (m, e) := sci_digits r in sci_chars m e
      else sci_chars 0 0
  end.

(** Leading digits of a string and the rest. *)
Fixpoint take_digits (s : str) : list Z * str :=
  match s with
  | c :: s' => match char_digit c with
               | Some d => let (ds, r) := take_digits s' in (d :: ds, r)
               | None => ([], s)
               end
  | [] => ([], [])
  end.

Definition take_sign (s : str) : bool * str :=
  match s with
  | "-"%char :: s' => (true, s')
  | "+"%char :: s' => (false, s')
  | _ => (false, s)
  end.

(** int(s).  Underscores between digits, which Python accepts, are refused. *)
Definition parse_int (s : str) : res Z :=
  let (neg, s) := take_sign (strip s) in
  match take_digits s with
  | ((_ :: _) as ds, []) => Ok (if neg then (- value_of ds)%Z else value_of ds)
  | _ => Err ValueError
  end.

Definition lower (c : ascii) : ascii :=
  let n := nat_of_ascii c in
  if (Nat.leb 65 n && Nat.leb n 90)%bool then ascii_of_nat (n + 32) else c.
Definition eqb_str (a b : str) : bool := if list_eq_dec ascii_dec a b then true else false.

(** Exponent part of a float literal. *)
Definition parse_exp (s : str) : res Z :=
  match s with
  | [] => Ok 0%Z
  | c :: s' =>
      if eqb_str [lower c] (lit "e") then
        let (neg, s'') := take_sign s' in
        match take_digits s'' with
        | ((_ :: _) as ds, []) => Ok (if neg then (- value_of ds)%Z else value_of ds)
        | _ => Err ValueError
        end
      else Err ValueError
  end.

(** float(s): [sign] (digits [. digits] | . digits) [e [sign] digits], nan, inf,
    infinity.  The decimal value is taken exactly (no rounding to binary). *)
Definition parse_float (s : str) : res xr :=
  let (neg, s) := take_sign (strip s) in
  let l := map lower s in
  if eqb_str l (lit "nan") then Ok NaN
  else if (eqb_str l (lit "inf") || eqb_str l (lit "infinity"))%bool
  then Ok (if neg then MInf else PInf)
  else
    let (ip, s1) := take_digits s in
    let (fp, s2) := match s1 with
                    | "."%char :: s1' => take_digits s1'
                    | _ => ([], s1)
                    end in
    match ip ++ fp with
    | [] => Err ValueError
    | _ =>
        let* e := parse_exp s2 in
        let v := IZR (value_of (ip ++ fp)) * powerRZ 10 (e - Z.of_nat (List.length fp)) in
        Ok (Fin (if neg then - v else v))
    end.

(** [f(x) for x in l], raising the first exception *)
Fixpoint collect {A} (l : list (res A)) : res (list A) :=
  match l with
  | [] => Ok []
  | x :: l' => let* a := x in let* r := collect l' in Ok (a :: r)
  end.

(** ** diffmah_fitter_helpers.py *)

(** :23 *)
Definition HEADER : str :=
  lit "# logm0 logtc early_index late_index t_peak loss n_points_per_fit fit_algo" ++ [ascii_of_nat 10].
(** :24 *)
Definition FIT_COLNAMES : list str := split (strip (skipn 1 HEADER)).
(** :27 *)
Definition HEADER_HALO_ID : str := lit "# halo_id" ++ skipn 1 HEADER.

(** :336-351 *)
Definition get_outline (fr : FitResult) (halo_id : option Z) : str :=
  let p := p_best fr in
  let floats := [logm0 p; logtc p; early_index p; late_index p; t_peak p; loss_best fr] in
  let out_list := map format_5e floats in
  let npts_mah := compute_non_trivial_npts (log_mah_target (loss_data fr)) in
  let out_list := out_list ++ [str_of_int (Z.of_nat npts_mah); str_of_int (code_used fr)] in
  let out_list := match halo_id with None => out_list | Some i => str_of_int i :: out_list end in
  join out_list ++ [ascii_of_nat 10].

(** :25 DiffmahFitData *)
Record FitData : Type := mkFitData {
  fd_logm0 : xr; fd_logtc : xr; fd_early : xr; fd_late : xr; fd_t_peak : xr; fd_loss : xr;
  fd_npts : Z; fd_algo : Z
}.

(** :354-359.  [zip] stops at the shorter list; too few fields make the
    constructor raise TypeError, too many are dropped by [zip]. *)
Definition parse_outline (line : str) : res FitData :=
  let outdata := split (strip line) in
  let* fl := collect (map parse_float (firstn 6 outdata)) in
  let* il := collect (map parse_int (firstn 2 (skipn 6 outdata))) in
  match fl, il with
  | [a; b; c; d; e; f], [n; k] => Ok (mkFitData a b c d e f n k)
  | _, _ => Err TypeError
  end.

(** ** write_collated_data *)

Inductive column : Type := FloatCol (l : list xr) | IntCol (l : list Z).

(** An HDF5 file: its datasets in order of creation.  A file system maps names
    to files. *)
Definition hdf := list (str * column).
Definition files := str -> option hdf.
Definition write_file (fs : files) (name : str) (f : hdf) : files :=
  fun n => if eqb_str n name then Some f else fs n.

(** a 2-d array of strings: the number of columns and the rows *)
Record table : Type := mkTable { ncols : nat; rows : list (list str) }.

Definition col (t : table) (j : nat) : list str := map (fun r => nth j r []) (rows t).
Definition float_col (t : table) (j : nat) : res column :=
  let* l := collect (map parse_float (col t j)) in Ok (FloatCol l).
Definition int_col (t : table) (j : nat) : res column :=
  let* l := collect (map parse_int (col t j)) in Ok (IntCol l).

(** :172-215.  The new file system and the exception, if any. *)
Definition write_collated_data (fs : files) (outname : str) (t : table) : files * res unit :=
  if Nat.eqb (ncols t) 8 then
    let cols :=
      let* logm0 := float_col t 0 in
      let* logtc := float_col t 1 in
      let* early_index := float_col t 2 in
      let* late_index := float_col t 3 in
      let* t_peak := float_col t 4 in
      let* loss := float_col t 5 in
      let* n_points_per_fit := int_col t 6 in
      let* fit_algo := int_col t 7 in
      Ok [(lit "logm0", logm0); (lit "logtc", logtc); (lit "early_index", early_index);
          (lit "late_index", late_index); (lit "t_peak", t_peak); (lit "loss", loss);
          (lit "n_points_per_fit", n_points_per_fit); (lit "fit_algo", fit_algo)] in
    match cols with
    | Ok h => (write_file fs outname h, Ok tt)
    | Err e => (fs, Err e)
    end
  else if Nat.eqb (ncols t) 9 then
    let cols :=
      let* halo_id := int_col t 0 in
      let* logm0 := float_col t 1 in
      let* logtc := float_col t 2 in
      let* early_index := float_col t 3 in
      let* late_index := float_col t 4 in
      let* t_peak := float_col t 5 in
      let* loss := float_col t 6 in
      let* n_points_per_fit := int_col t 7 in
      let* fit_algo := int_col t 8 in
      Ok [(lit "halo_id", halo_id); (lit "logm0", logm0); (lit "logtc", logtc);
          (lit "early_index", early_index); (lit "late_index", late_index);
          (lit "t_peak", t_peak); (lit "loss", loss);
          (lit "n_points_per_fit", n_points_per_fit); (lit "fit_algo", fit_algo)] in
    match cols with
    | Ok h => (write_file fs outname h, Ok tt)
    | Err e => (fs, Err e)
    end
  else (fs, Ok tt).
