(** Model of the gradients of the population losses: jax.value_and_grad of the
    loss functions of bimod_cens_fithelp.py, bimod_sats_fithelp.py and
    bimod_censat_fithelp.py.

    jax differentiates the functions operation by operation.  The model runs
    the same functions on dual numbers, one field at a time (forward mode;
    jax's reverse mode applies the same derivative rules in the other order,
    and in exact arithmetic gives the same numbers).  Random numbers, array
    indices and the outcomes of comparisons are constants for the derivative,
    as they are in jax. *)

From Coq Require Import Reals String List Bool Arith.
From Verif Require Import Model_Num Model_Base Model_Kernels Model_PopBase Model_PopParams Model_PopKernels
  Model_PopMC.
Import ListNotations.

(** ** The random generator, over any numeric type *)

Section Generator.
  Context {A : Type} {N : Num A}.
  Local Open Scope num_scope.

  (** jax.lax.linalg.cholesky (external) of a symmetric matrix of dimension
      [n]: the lower-triangular factor with positive diagonal, by elimination
      of the first row and column. *)
  Fixpoint cholesky (n : nat) (M : nmat) : nmat (A := A) :=
    match n with
    | O => fun _ _ => #0
    | S n' =>
        let d := nsqrt (M 0%nat 0%nat) in
        let col := fun i => M i 0%nat / d in
        let rest := cholesky n' (fun i j => M (S i) (S j) - col (S i) * col (S j)) in
        fun i j =>
          match i, j with
          | O, O => d
          | S _, O => col i
          | O, S _ => #0
          | S i', S j' => rest i' j'
          end
    end.

  (** [symmetrize_input=True] of jax.lax.linalg.cholesky: [(x + x.T) / 2] *)
  Definition symmetrized (M : nmat) : nmat (A := A) := fun i j => (M i j + M j i) / #2.

  (** jax.random (external) with uniform numbers [unif] and standard normal
      numbers [normal]: the sample of multivariate_normal is the mean plus the
      Cholesky factor of the covariance times independent normal numbers. *)
  Definition jax_rng (unif : key -> R) (unifs : key -> nat -> R) (normal : key -> nat -> R) : rng A :=
    mkRng A (fun k => #(unif k))
      (fun k n => map (fun i => #(unifs k i)) (seq 0 n))
      (fun k c => let L := cholesky (fst c) (symmetrized (snd c)) in
                  map (fun i => nsumn (fst c) (fun j => L i j * #(normal k j))) (seq 0 (fst c))).
End Generator.

(** ** value_and_grad *)

(** Data that do not vary with the differentiated parameters. *)
Definition lift_bin (b : Bin R) : Bin (Dual R) :=
  mkBin (map dlift (bin_tarr b)) (dlift (bin_lgm_obs b)) (dlift (bin_t_obs b))
    (map dlift (bin_mean b)) (map dlift (bin_std b)) (map dlift (bin_frac_peaked b)).

(** The parameters as duals that vary in the direction [v]. *)
Definition seed (p : rec R) (v : string -> R) : rec (Dual R) :=
  map (fun kv => (fst kv, mkDual (snd kv) (v (fst kv)))) p.

(** The direction of one field. *)
Definition along (k : string) : string -> R := fun k' => if String.eqb k k' then 1%R else 0%R.

(** [value_and_grad(f)(p)]: the value, and a namedtuple like [p] of the
    derivatives. *)
Definition value_and_grad (f : rec (Dual R) -> res (Dual R)) (p : rec R) : res (R * rec R) :=
  let* v := f (seed p (fun _ => 0%R)) in
  let* g := mapM (fun k => let* d := f (seed p (along k)) in Ok (k, dder d)) (fields p) in
  Ok (dval v, g).

Section Losses.
  Context (truncnorm_cdf : Dual R -> Dual R -> Dual R -> Dual R -> Dual R -> Dual R).
  Context (unif : key -> R) (unifs : key -> nat -> R) (normal : key -> nat -> R).
  Let G : rng (Dual R) := jax_rng unif unifs normal.

  (** bimod_cens_fithelp.py:108-110, loss_and_grads_mah_moments_multibin *)
  Definition loss_and_grads_mah_moments_multibin_cens (u_params : rec R) (bins : list (Bin R)) (ran_key : key)
    (lgt0 : R) : res (R * rec R) :=
    value_and_grad (fun u => fst (loss_mah_moments_multibin_u_params truncnorm_cdf G u (map lift_bin bins)
                                    ran_key (dlift lgt0))) u_params.

  (** bimod_sats_fithelp.py:98, loss_and_grads_mah_moments_multibin *)
  Definition loss_and_grads_mah_moments_multibin_sats (params : rec R) (bins : list (Bin R)) (ran_key : key)
    (lgt0 : R) : res (R * rec R) :=
    value_and_grad (fun p => fst (loss_mah_moments_multibin truncnorm_cdf G Sat p (map lift_bin bins)
                                    ran_key (dlift lgt0))) params.

  (** bimod_censat_fithelp.py:64-66 *)
  Definition loss_and_grads_mah_moments_multibin_censat (varied : rec R) (bins_cens bins_sats : list (Bin R))
    (ran_key : key) (lgt0 : R) : res (R * rec R) :=
    value_and_grad (fun p => fst (loss_mah_moments_multibin_censat truncnorm_cdf G p (map lift_bin bins_cens)
                                    (map lift_bin bins_sats) ran_key (dlift lgt0))) varied.

  (** bimod_censat_fithelp.py:76-78 *)
  Definition loss_and_grads_mah_moments_multibin_censat_u_params (u_params : rec R)
    (bins_cens bins_sats : list (Bin R)) (ran_key : key) (lgt0 : R) : res (R * rec R) :=
    value_and_grad (fun u => fst (loss_mah_moments_multibin_censat_u_params truncnorm_cdf G u
                                    (map lift_bin bins_cens) (map lift_bin bins_sats) ran_key (dlift lgt0)))
      u_params.
End Losses.
