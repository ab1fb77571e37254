(** Properties C15-C21: array utilities. *)

From Coq Require Import Reals Lra Lia List Arith Permutation Sorted.
From Verif Require Import Model_Num RealAux Model_Base Model_Kernels Model_Utils Spec_Utils
  Proofs_Kernels Proofs_Utils Proofs_Chol Proofs_Trim Proofs_Cov.
Import ListNotations.
Local Open Scope R_scope.

(** C15: cell i is the interval between edge i and edge i+1. *)
Theorem C15_cells_tile_an_interval : forall t, (2 <= length t)%nat ->
  exists dt e, get_dt_array t = Ok dt /\ length dt = length t /\ length e = S (length t) /\
    (forall i, (i < length t)%nat -> nth i dt 0 = nth (S i) e 0 - nth i e 0) /\
    nth 0 e 0 = nth 0 t 0 - (nth 1 t 0 - nth 0 t 0) / 2 /\
    (forall i, (S i < length t)%nat -> nth (S i) e 0 = (nth i t 0 + nth (S i) t 0) / 2) /\
    nth (length t) e 0 = nth (length t - 1) t 0 + nth (length t - 2) dt 0 / 2.
Proof. exact dt_tiles. Qed.
Print Assumptions C15_cells_tile_an_interval.

Theorem C15_cell_widths : forall t dt, get_dt_array t = Ok dt ->
  (2 <= length t)%nat /\ length dt = length t /\
  nth 0 dt 0 = nth 1 t 0 - nth 0 t 0 /\
  (forall i, (0 < i)%nat -> (S i < length t)%nat ->
     nth i dt 0 = (nth (S i) t 0 - nth (i - 1) t 0) / 2) /\
  nth (length t - 1) dt 0 = (nth (length t - 1) t 0 - nth (length t - 2) t 0
                              + nth (length t - 2) dt 0) / 2.
Proof. exact dt_cells. Qed.
Print Assumptions C15_cell_widths.

Theorem C15_positive_on_increasing_times : forall t dt, get_dt_array t = Ok dt ->
  (forall i, (S i < length t)%nat -> nth i t 0 < nth (S i) t 0) ->
  forall d, In d dt -> 0 < d.
Proof. exact dt_positive. Qed.
Print Assumptions C15_positive_on_increasing_times.

Theorem C15_uniform_grid : forall t dt h, get_dt_array t = Ok dt ->
  (forall i, (S i < length t)%nat -> nth (S i) t 0 - nth i t 0 = h) ->
  forall d, In d dt -> d = h.
Proof. exact dt_uniform. Qed.
Print Assumptions C15_uniform_grid.

Theorem C15_too_short_raises : forall t,
  (get_dt_array t = Err IndexError <-> (length t < 2)%nat) /\
  (forall e, get_dt_array t = Err e -> e = IndexError).
Proof. exact dt_error_kind. Qed.
Print Assumptions C15_too_short_raises.

Example C15_example : exists dt, get_dt_array [1; 2; 4] = Ok dt.
Proof. eexists. reflexivity. Qed.

(** C16: [n] is the largest dimension whose triangle fits in the array; entry
    (i, j) of the row-major (n, n) result. *)
Theorem C16_cholesky_entries : forall params n i j,
  (n * (n + 1) <= 2 * length params < (n + 1) * (n + 2))%nat -> (i < n)%nat -> (j < n)%nat ->
  fst (get_cholesky_from_params params) = n /\
  length (snd (get_cholesky_from_params params)) = (n * n)%nat /\
  exists v, nth_error (snd (get_cholesky_from_params params)) (i * n + j) = Some (Some v) /\
    (j = i -> nth_error params i = Some v) /\
    ((j < i)%nat -> nth_error params (n + i * (i - 1) / 2 + j) = Some v) /\
    ((i < j)%nat -> v = 0).
Proof. exact chol_entry. Qed.
Print Assumptions C16_cholesky_entries.

(** The positions read by the lower triangle are 0, ..., n(n+1)/2 - 1, each once. *)
Theorem C16_every_parameter_used_once : forall n q, (2 * q < n * (n + 1))%nat ->
  exists i j, ((j <= i)%nat /\ (i < n)%nat /\
    q = if Nat.eqb i j then i else (n + i * (i - 1) / 2 + j)%nat) /\
  forall i' j', (j' <= i')%nat -> (i' < n)%nat ->
    q = (if Nat.eqb i' j' then i' else (n + i' * (i' - 1) / 2 + j')%nat) -> i' = i /\ j' = j.
Proof. exact pos_unique. Qed.
Print Assumptions C16_every_parameter_used_once.

(** Distinct parameter arrays of triangular length give distinct matrices. *)
Theorem C16_cholesky_injective : forall n p q,
  (2 * length p = n * (n + 1))%nat -> length q = length p ->
  get_cholesky_from_params p = get_cholesky_from_params q -> p = q.
Proof. exact chol_injective. Qed.
Print Assumptions C16_cholesky_injective.

(** Surplus parameters beyond the triangle are silently ignored. *)
Theorem C16_surplus_ignored : forall params n,
  (n * (n + 1) <= 2 * length params < (n + 1) * (n + 2))%nat ->
  get_cholesky_from_params params = get_cholesky_from_params (firstn (n * (n + 1) / 2) params).
Proof. exact chol_surplus. Qed.
Print Assumptions C16_surplus_ignored.

Example C16_docstring_example :
  get_cholesky_from_params [1; 2; 3; 4; 5; 6]
  = (3%nat, [Some (1 * 1); Some (1 * 0); Some (1 * 0); Some (4 * 1); Some (2 * 1); Some (1 * 0);
       Some (5 * 1); Some (6 * 1); Some (3 * 1)]).
Proof. reflexivity. Qed.

(** C17 *)
Theorem C17_trimmed_mean : forall x p xlo xhi, x <> [] -> 0 <= p < 1 / 2 ->
  is_quantile x p xlo -> is_quantile x (1 - p) xhi ->
  (strictly_inside xlo xhi x = [] -> trimmed_mean x p = NaN) /\
  (strictly_inside xlo xhi x <> [] ->
     trimmed_mean x p = Fin (mean (strictly_inside xlo xhi x)) /\
     xlo < mean (strictly_inside xlo xhi x) < xhi).
Proof.
  intros x p xlo xhi Hx Hp HL HH. rewrite (trimmed_mean_spec x p xlo xhi Hx ltac:(lra) HL HH).
  split; intros H.
  - now rewrite H.
  - split.
    + destruct (strictly_inside xlo xhi x); [contradiction|reflexivity].
    + apply mean_between; auto. intros z Hz. now apply strictly_inside_In in Hz.
Qed.
Print Assumptions C17_trimmed_mean.

(** The two quantiles always exist and are unique, so the statement above applies. *)
Theorem C17_quantiles_exist : forall x q, x <> [] -> 0 <= q <= 1 ->
  exists v, is_quantile x q v /\ forall v', is_quantile x q v' -> v' = v.
Proof.
  intros x q Hx Hq. exists (percentile x (q * 100)).
  pose proof (percentile_quantile x q Hx Hq) as H. split; [exact H|].
  intros v' H'. exact (quantile_unique x q v' _ H' H).
Qed.
Print Assumptions C17_quantiles_exist.

Theorem C17_constant_array_is_nan : forall x p c, x <> [] -> 0 <= p < 1 / 2 ->
  (forall z, In z x -> z = c) -> trimmed_mean x p = NaN.
Proof. exact trimmed_constant. Qed.
Print Assumptions C17_constant_array_is_nan.

(** With p = 0 the thresholds are the minimum and the maximum, both excluded. *)
Theorem C17_p_zero_is_plain_mean_refuted :
  exists x, trimmed_mean x 0 = Fin 3 /\ mean x = 4.
Proof. exact p_zero_not_mean. Qed.
Print Assumptions C17_p_zero_is_plain_mean_refuted.

(** C18 *)
Theorem C18_trimmed_variance : forall x p xlo xhi, x <> [] -> 0 <= p < 1 / 2 ->
  is_quantile x p xlo -> is_quantile x (1 - p) xhi ->
  let kept := strictly_inside xlo xhi x in
  fst (trimmed_mean_and_variance x p) = trimmed_mean x p /\
  ((length kept < 2)%nat -> snd (trimmed_mean_and_variance x p) = NaN) /\
  ((2 <= length kept)%nat ->
     snd (trimmed_mean_and_variance x p) = Fin (sample_variance kept) /\
     0 <= sample_variance kept /\
     (sample_variance kept = 0 <-> forall y z, In y kept -> In z kept -> y = z)).
Proof.
  intros x p xlo xhi Hx Hp HL HH. cbv zeta.
  rewrite (trimmed_var_spec x p xlo xhi Hx ltac:(lra) HL HH). cbn [fst snd].
  split; [reflexivity|]. split.
  - intros H. destruct (strictly_inside xlo xhi x) as [|a [|b l]]; auto. cbn in H; lia.
  - intros H. split; [|now apply sample_variance_nonneg].
    destruct (strictly_inside xlo xhi x) as [|a [|b l]]; cbn in H; try lia. reflexivity.
Qed.
Print Assumptions C18_trimmed_variance.

Theorem C18_order_of_points_irrelevant : forall x y p, x <> [] -> 0 <= p < 1 / 2 ->
  Permutation x y -> trimmed_mean_and_variance x p = trimmed_mean_and_variance y p.
Proof. intros x y p Hx Hp. apply trimmed_perm; auto; lra. Qed.
Print Assumptions C18_order_of_points_irrelevant.

(** With p = 0 the five points 1..5 keep 2, 3, 4, of variance 1. *)
Example C18_example : snd (trimmed_mean_and_variance [5; 1; 2; 3; 4] 0) = Fin 1.
Proof.
  assert (P : Permutation [5; 1; 2; 3; 4] [1; 2; 3; 4; 5])
    by exact (Permutation_cons_append [1; 2; 3; 4] 5).
  assert (S : StronglySorted Rle [1; 2; 3; 4; 5]).
  { repeat (constructor; [|repeat (constructor; [lra|]); constructor]). constructor. }
  destruct (C18_trimmed_variance [5; 1; 2; 3; 4] 0 1 5) as (_ & _ & H); [discriminate|lra| | |].
  - exists [1; 2; 3; 4; 5], 0%nat, 0. cbn. split; [exact P|]. split; [exact S|]. split; [lra|]. left. split; reflexivity.
  - exists [1; 2; 3; 4; 5], 4%nat, 0. cbn. split; [exact P|]. split; [exact S|]. split; [lra|]. left. split; reflexivity.
  - assert (K : strictly_inside 1 5 [5; 1; 2; 3; 4] = [2; 3; 4]).
    { unfold strictly_inside. cbn [filter].
      repeat (match goal with |- context [Rlt_dec ?a ?b] => destruct (Rlt_dec a b); try lra end). reflexivity. }
    rewrite K in H. destruct H as [-> _]; [cbn; lia|]. f_equal.
    unfold sample_variance, mean, Rsum. cbn. lra.
Qed.

(** C19 *)
Theorem C19_correlation_roundtrip : forall n corr sig,
  (forall k, (k < n)%nat -> corr k k = 1) -> (forall k, (k < n)%nat -> 0 < sig k) ->
  forall i j, (i < n)%nat -> (j < n)%nat ->
  correlation_from_covariance (covariance_from_correlation n corr sig) i j = corr i j /\
  covariance_from_correlation n corr sig i i = sig i ^ 2 /\
  (corr i j = corr j i ->
   covariance_from_correlation n corr sig i j = covariance_from_correlation n corr sig j i).
Proof.
  intros n corr sig H1 Hs i j Hi Hj. split; [now apply corr_cov_roundtrip|].
  rewrite !cov_entry by auto. split.
  - rewrite H1 by auto. ring.
  - intros ->. ring.
Qed.
Print Assumptions C19_correlation_roundtrip.

Theorem C19_covariance_roundtrip : forall n cov,
  (forall k, (k < n)%nat -> 0 < cov k k) ->
  forall i j, (i < n)%nat -> (j < n)%nat ->
  covariance_from_correlation n (correlation_from_covariance cov) (fun k => sqrt (cov k k)) i j
    = cov i j /\
  correlation_from_covariance cov i i = 1 /\
  (cov i j = cov j i -> correlation_from_covariance cov i j = correlation_from_covariance cov j i).
Proof.
  intros n cov Hd i j Hi Hj. split; [now apply cov_corr_roundtrip|].
  split; [now apply (corr_diag n)|]. apply corr_symmetric.
Qed.
Print Assumptions C19_covariance_roundtrip.

Theorem C19_definiteness_preserved : forall n corr sig,
  (psd n corr -> psd n (covariance_from_correlation n corr sig)) /\
  ((forall k, (k < n)%nat -> sig k <> 0) -> posdef n corr ->
     posdef n (covariance_from_correlation n corr sig)).
Proof. intros. split; [apply cov_psd | apply cov_posdef]. Qed.
Print Assumptions C19_definiteness_preserved.

Example C19_identity_posdef : posdef 1 (fun _ _ => 1).
Proof.
  intros v (i & Hi & Hv). assert (i = 0%nat) by lia. subst.
  unfold quad_form, sum_below, Rsum. cbn. nra.
Qed.

(** A 2x2 correlation matrix with a half off the diagonal, and deviations 1 and 2. *)
Example C19_example :
  let corr := fun i j : nat => if Nat.eqb i j then 1 else 1 / 2 in
  let sig := fun k : nat => INR k + 1 in
  (forall k, (k < 2)%nat -> corr k k = 1) /\ (forall k, (k < 2)%nat -> 0 < sig k) /\
  covariance_from_correlation 2 corr sig 0%nat 1%nat = 1 /\ posdef 2 corr /\
  posdef 2 (covariance_from_correlation 2 corr sig).
Proof.
  cbv zeta. set (corr := fun i j : nat => if Nat.eqb i j then 1 else 1 / 2). set (sig := fun k : nat => INR k + 1).
  assert (Sg : forall k, (k < 2)%nat -> 0 < sig k) by (intros k _; unfold sig; pose proof (pos_INR k); lra).
  assert (P : posdef 2 corr).
  { intros v (i & Hi & Hv). unfold quad_form, sum_below, Rsum, corr. cbn.
    assert (v 0%nat <> 0 \/ v 1%nat <> 0) as [H|H] by (destruct i as [|[|i]]; [now left|now right|lia]).
    - pose proof (Rsqr_pos_lt _ H) as Q. pose proof (Rle_0_sqr (v 1%nat + v 0%nat / 2)) as W. unfold Rsqr in *. lra.
    - pose proof (Rsqr_pos_lt _ H) as Q. pose proof (Rle_0_sqr (v 0%nat + v 1%nat / 2)) as W. unfold Rsqr in *. lra. }
  split; [intros k _; unfold corr; now rewrite Nat.eqb_refl|]. split; [exact Sg|]. split.
  - rewrite cov_entry by lia. unfold corr, sig. cbn. lra.
  - split; [exact P|]. apply (proj2 (C19_definiteness_preserved 2 corr sig)); [|exact P].
    intros k Hk. specialize (Sg k Hk). lra.
Qed.

(** C20: [size a] is 1 for a scalar and the length of an array. *)
Theorem C20_get_1d_arrays : forall args npts,
  let size a := match a with Scalar _ => 1%nat | Array l => length l end in
  (exists a, In a args /\ size a = npts) -> (forall a, In a args -> (size a <= npts)%nat) ->
  (get_1d_arrays args = Err AssertionError <->
     exists a, In a args /\ size a <> 1%nat /\ size a <> npts) /\
  (forall out, get_1d_arrays args = Ok out ->
     length out = length args /\
     forall i a, nth_error args i = Some a ->
       exists l, nth_error out i = Some l /\ length l = npts /\
         forall j, (j < npts)%nat ->
           nth_error l j = match a with
                           | Scalar x => Some x
                           | Array [x] => Some x
                           | Array v => nth_error v j
                           end) /\
  (get_1d_arrays args = Err AssertionError \/ exists out, get_1d_arrays args = Ok out).
Proof. exact get_1d_arrays_full. Qed.
Print Assumptions C20_get_1d_arrays.

Example C20_example : get_1d_arrays [Scalar 1; Array [2; 3]] = Ok [[0 + 1; 0 + 1]; [0 + 2; 0 + 3]].
Proof. reflexivity. Qed.

(** C21 *)
Theorem C21_sig_slope : forall x xtp ytp x0 k lo hi : R,
  sig_slope xtp xtp ytp x0 k lo hi = ytp /\
  (x <> xtp -> lo <> hi ->
   Rmin lo hi < (sig_slope x xtp ytp x0 k lo hi - ytp) / (x - xtp) < Rmax lo hi).
Proof. intros. split; [apply sig_slope_pivot | apply sig_slope_between]. Qed.
Print Assumptions C21_sig_slope.

Example C21_example : 7 < sig_slope 3 1 5 0 1 1 2 < 9.
Proof.
  destruct (C21_sig_slope 3 1 5 0 1 1 2) as [_ H]. specialize (H ltac:(lra) ltac:(lra)).
  rewrite Rmin_left, Rmax_right in H by lra. lra.
Qed.
