(** Model of diffmah/utils.py over the real numbers, with IEEE special values
    where a division by zero can happen. *)

From Coq Require Import Reals List ZArith Arith.
From Verif Require Import Model_Num Model_Base Model_Kernels.
Import ListNotations.
Local Open Scope R_scope.

(** ** get_1d_arrays *)

(** An argument is a Python scalar or a one-dimensional array. *)
Inductive arg : Type :=
| Scalar (a : R)
| Array (l : list R).

Definition atleast_1d (a : arg) : list R :=
  match a with Scalar x => [x] | Array l => l end.

(** numpy broadcasting of an array against [zeros(npts)]; only sizes 1 and
    [npts] reach this point. *)
Definition add_zeros (npts : nat) (l : list R) : list R :=
  match l with
  | [x] => map (fun z => z + x) (repeat 0 npts)
  | _ => map (fun x => 0 + x) l
  end.

(** diffmah/utils.py:9-25.  dtypes and the jax/numpy switch are not modelled.
    [max([])] raises ValueError. *)
Definition get_1d_arrays (args : list arg) : res (list (list R)) :=
  let results := map atleast_1d args in
  let sizes := map (@length R) results in
  match sizes with
  | [] => Err ValueError
  | s :: ss =>
      let npts := fold_left Nat.max ss s in
      if forallb (fun k => Nat.eqb k 1 || Nat.eqb k npts)%bool sizes
      then Ok (map (add_zeros npts) results)
      else Err AssertionError
  end.

(** diffmah/utils.py:28-49 and 52-74 coincide with [sigmoid] and
    [inverse_sigmoid] of Model_Kernels (jax.nn.sigmoid instead of an explicit
    exponential). *)

(** diffmah/utils.py:77-80 *)
Definition sig_slope {A} {N : Num A} (x xtp ytp x0 slope_k lo hi : A) : A :=
  let slope := sigmoid x x0 slope_k lo hi in
  (ytp + slope * (x - xtp))%num.

(** ** get_dt_array *)

(** diffmah/utils.py:101-104: the loop over i = 0..n-2 from state [tlo];
    returns the entries written, the final [tlo] and [t[n-1]]. *)
Fixpoint dt_loop (tlo ti : R) (rest : list R) : list R * R * R :=
  match rest with
  | [] => ([], tlo, ti)
  | tnext :: rest' =>
      let thi := (tnext + ti) / 2 in
      let '(dts, tlo', tlast) := dt_loop thi tnext rest' in
      ((thi - tlo) :: dts, tlo', tlast)
  end.

(** diffmah/utils.py:83-107 *)
Definition get_dt_array (t : list R) : res (list R) :=
  match t with
  | t0 :: ((t1 :: _) as rest) =>
      let tlo := t0 - (t1 - t0) / 2 in
      let '(dts, tlo', tlast) := dt_loop tlo t0 rest in
      let thi := tlast + last dts 0 / 2 in
      Ok (dts ++ [thi - tlo'])
  | _ => Err IndexError
  end.

(** ** get_cholesky_from_params *)

(** diffmah/utils.py:130.  [np.sqrt] of an exact integer, truncated: the floor
    of the integer square root gives the same number. *)
Definition chol_ndim (size : nat) : nat := ((Nat.sqrt (8 * size + 1) - 1) / 2)%nat.

Fixpoint cumsum_from (acc : Z) (l : list Z) : list Z :=
  match l with
  | [] => []
  | x :: l' => (acc + x)%Z :: cumsum_from (acc + x)%Z l'
  end.

(** Row and column of a flattened (ndim, ndim) array. *)
Definition frow (n k : nat) : nat := (k / n)%nat.
Definition fcol (n k : nat) : nat := (k mod n)%nat.

(** diffmah/utils.py:131-136, arrays flattened in row-major order. *)
Definition chol_indx (ndim : nat) : list Z :=
  let ks := seq 0 (ndim * ndim) in
  let indx_diags :=
    map (fun k => if Nat.eqb (frow ndim k) (fcol ndim k) then Z.of_nat (frow ndim k) else 0%Z) ks in
  let unity := map (fun k => if Nat.leb (fcol ndim k) (frow ndim k) then 1%Z else 0%Z) ks in
  let eye := map (fun k => if Nat.eqb (frow ndim k) (fcol ndim k) then 1%Z else 0%Z) ks in
  let lunity := map (fun ue => Z.abs (fst ue * (snd ue - 1))%Z) (combine unity eye) in
  let X := map (fun cl => ((fst cl * snd cl + Z.of_nat ndim) * snd cl)%Z)
             (combine (cumsum_from 0 lunity) lunity) in
  let indx_offdiags := map (fun xl => ((fst xl - 1) * snd xl)%Z) (combine X lunity) in
  map (fun ab => (fst ab + snd ab)%Z) (combine indx_diags indx_offdiags).

(** jax gather: an index past the end is clamped to the last entry. *)
Definition gather (params : list R) (i : Z) : option R :=
  nth_error params (Nat.min (Z.to_nat i) (length params - 1)).

(** diffmah/utils.py:110-138, result flattened in row-major order. *)
Definition get_cholesky_from_params (params : list R) : nat * list (option R) :=
  let ndim := chol_ndim (length params) in
  let vals := map (gather params) (chol_indx ndim) in
  let unity := map (fun k => if Nat.leb (fcol ndim k) (frow ndim k) then 1 else 0)
                 (seq 0 (ndim * ndim)) in
  (ndim, map (fun vu => match fst vu with Some v => Some (v * snd vu) | None => None end)
           (combine vals unity)).

(** ** Percentiles and trimmed moments *)

Fixpoint insert_R (x : R) (l : list R) : list R :=
  match l with
  | [] => [x]
  | y :: l' => if Rleb x y then x :: y :: l' else y :: insert_R x l'
  end.
Definition sort_R (l : list R) : list R := fold_right insert_R [] l.

(** jnp.percentile (external), default method "linear": position
    [q/100*(n-1)] in the sorted array, linear interpolation.  Non-empty input. *)
Definition percentile (x : list R) (q : R) : R :=
  let s := sort_R x in
  let pos := q / 100 * INR (length x - 1) in
  let lo := Z.to_nat (Int_part pos) in
  let hi := Nat.min (lo + 1) (length x - 1) in
  let w := pos - INR lo in
  nth lo s 0 * (1 - w) + nth hi s 0 * w.

Definition xsum (l : list xr) : xr := fold_right xadd (Fin 0) l.

Definition inb (xlo xhi x : R) : bool := (Rltb xlo x && Rltb x xhi)%bool.

(** diffmah/utils.py:158-162 = 186-190 *)
Definition trim_weights (x : list R) (p_trim : R) : list xr :=
  let xlo := percentile x (p_trim * 100) in
  let xhi := percentile x ((1 - p_trim) * 100) in
  let w := map (fun xi => jwhere (inb xlo xhi xi) (Fin 1) (Fin 0)) x in
  map (fun wi => xdiv wi (xsum w)) w.

(** diffmah/utils.py:141-164 *)
Definition trimmed_mean (x : list R) (p_trim : R) : xr :=
  xsum (map (fun xw => xmul (Fin (fst xw)) (snd xw)) (combine x (trim_weights x p_trim))).

(** diffmah/utils.py:167-200 *)
Definition trimmed_mean_and_variance (x : list R) (p_trim : R) : xr * xr :=
  let weights := trim_weights x p_trim in
  let mu := xsum (map (fun xw => xmul (Fin (fst xw)) (snd xw)) (combine x weights)) in
  let num_nonzero := INR (length (filter (fun w => xltb (Fin 0) w) weights)) in
  let var_integrand :=
    map (fun xw => let d := xsub (Fin (fst xw)) mu in xmul (snd xw) (xmul d d))
      (combine x weights) in
  let numerator := xsum var_integrand in
  let denominator := xdiv (Fin (num_nonzero - 1)) (Fin num_nonzero) in
  (mu, xdiv numerator denominator).

(** ** Correlation and covariance: an (n, n) array is a function of two indices. *)

Definition sumn (n : nat) (f : nat -> R) : R := fold_right Rplus 0 (map f (seq 0 n)).
Definition mat := nat -> nat -> R.
Definition mdot (n : nat) (a b : mat) : mat := fun i j => sumn n (fun k => a i k * b k j).
Definition mdiag (v : nat -> R) : mat := fun i j => if Nat.eqb i j then v i else 0.

(** diffmah/utils.py:203-222 *)
Definition covariance_from_correlation (n : nat) (corr : mat) (evals : nat -> R) : mat :=
  let D := mdiag evals in
  mdot n (mdot n D corr) D.

(** diffmah/utils.py:225-243.  Negative variances (NaN in numpy) are outside
    the model: real square root. *)
Definition correlation_from_covariance (cov : mat) : mat :=
  let v := fun i => sqrt (cov i i) in
  let outer_v := fun i j => v i * v j in
  fun i j => jwhere (Reqb (cov i j) 0) 0 (cov i j / outer_v i j).
