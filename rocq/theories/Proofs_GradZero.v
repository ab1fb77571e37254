(** The derivative with respect to a correlation that is exactly zero. *)

From Coq Require Import Reals String List Bool Arith ZArith Lia Lra.
From Coquelicot Require Import Coquelicot.
From Verif Require Import Model_Num RealAux Model_Base Model_Kernels Model_Utils Model_PopBase Model_PopData
  Model_PopParams Model_PopKernels Model_PopMC Model_Grad Spec_Utils Spec_Pop Spec_PopMC Spec_Grad
  Proofs_PopBase Proofs_PopKernels Proofs_PopCov Proofs_PopAll Proofs_AD Proofs_PopAD Proofs_CholAD Proofs_PopAD3.
Import ListNotations.
Local Open Scope R_scope.
Local Open Scope string_scope.

Lemma getattr_line p v h k a : getattr p k = Ok a -> getattr (line p v h) k = Ok (a + h * v k).
Proof.
  induction p as [|[k' b] p IH]; cbn; [discriminate|]. destruct (String.eqb k' k) eqn:E.
  - intros [= <-]. apply String.eqb_eq in E. now subst.
  - exact IH.
Qed.
Lemma getattr_seed p v k a : getattr p k = Ok a -> getattr (seed p v) k = Ok (mkDual a (v k)).
Proof.
  induction p as [|[k' b] p IH]; cbn; [discriminate|]. destruct (String.eqb k' k) eqn:E.
  - intros [= <-]. apply String.eqb_eq in E. now subst.
  - exact IH.
Qed.
Lemma fields_line p v h : fields (line p v h) = fields p.
Proof. unfold fields, line. rewrite map_map. reflexivity. Qed.
Lemma fields_seed p v : fields (seed p v) = fields p.
Proof. unfold fields, seed. rewrite map_map. reflexivity. Qed.

Definition RHO10 := "rho_logtc_logm0".

Lemma cov_std_line p h m q s : cov_std p m q = Ok s -> along RHO10 ("cov_lgm_x0_" ++ q) = 0 ->
  along RHO10 ("std_u_" ++ q ++ "_ylo") = 0 -> along RHO10 ("std_u_" ++ q ++ "_yhi") = 0 ->
  cov_std (line p (along RHO10) h) m q = Ok s.
Proof.
  unfold cov_std. intros H Z1 Z2 Z3.
  destruct (getattr p ("cov_lgm_x0_" ++ q)) eqn:E1; [|discriminate].
  destruct (getattr p ("std_u_" ++ q ++ "_ylo")) eqn:E2; [|discriminate].
  destruct (getattr p ("std_u_" ++ q ++ "_yhi")) eqn:E3; [|discriminate].
  rewrite (getattr_line _ _ _ _ _ E1), (getattr_line _ _ _ _ _ E2), (getattr_line _ _ _ _ _ E3), Z1, Z2, Z3.
  rewrite !Rmult_0_r, !Rplus_0_r. exact H.
Qed.

Lemma cov_std_seed p m q s : cov_std p m q = Ok s -> along RHO10 ("cov_lgm_x0_" ++ q) = 0 ->
  along RHO10 ("std_u_" ++ q ++ "_ylo") = 0 -> along RHO10 ("std_u_" ++ q ++ "_yhi") = 0 ->
  cov_std (seed p (along RHO10)) (dlift m) q = Ok (dlift s).
Proof.
  unfold cov_std. intros H Z1 Z2 Z3.
  destruct (getattr p ("cov_lgm_x0_" ++ q)) eqn:E1; [|discriminate].
  destruct (getattr p ("std_u_" ++ q ++ "_ylo")) eqn:E2; [|discriminate].
  destruct (getattr p ("std_u_" ++ q ++ "_yhi")) eqn:E3; [|discriminate].
  rewrite (getattr_seed _ _ _ _ E1), (getattr_seed _ _ _ _ E2), (getattr_seed _ _ _ _ E3), Z1, Z2, Z3.
  cbn [bind] in H |- *. injection H as <-. f_equal. unfold dlift, sigmoid, COV_LGM_K. cbn.
  unfold dadd, dsub, dmul, ddiv, dlogistic, dconst. cbn. f_equal. unfold Rdiv. ring.
Qed.

Lemma params_line p h m s0 s1 s2 s3 r0 r1 r2 r3 r4 r5 : legal_pop p ->
  get_cov_params p m = Ok ([s0; s1; s2; s3], [r0; r1; r2; r3; r4; r5]) -> r0 = 0 ->
  get_cov_params (line p (along RHO10) h) m = Ok ([s0; s1; s2; s3], [h; r1; r2; r3; r4; r5]) /\
  get_cov_params (seed p (along RHO10)) (dlift m) =
    Ok (map dlift [s0; s1; s2; s3], mkDual 0 1 :: map dlift [r1; r2; r3; r4; r5]).
Proof.
  intros HL H Z. assert (PC : provides COV p) by (apply pop_provides_part; [cbn; tauto|exact HL]).
  destruct (cov_params_eval p m PC (pop_rho _ HL)) as (a0 & a1 & a2 & a3 & b0 & b1 & b2 & b3 & b4 & b5 &
    E & S0 & S1 & S2 & S3 & _ & _ & G0 & G1 & G2 & G3 & G4 & G5).
  rewrite E in H. injection H as -> -> -> -> -> -> -> -> -> ->. subst r0.
  apply (in_getattr _ _ _ (proj1 PC)) in G0, G1, G2, G3, G4, G5.
  unfold get_cov_params. rewrite fields_line, fields_seed, (pop_rho _ HL). split.
  - rewrite (cov_std_line p h m "logm0" s0 S0) by reflexivity. rewrite (cov_std_line p h m "logtc" s1 S1) by reflexivity.
    rewrite (cov_std_line p h m "early" s2 S2) by reflexivity. rewrite (cov_std_line p h m "late" s3 S3) by reflexivity.
    cbn [bind]. unfold RHO_NAMES. cbn [getattrs].
    rewrite (getattr_line _ _ _ _ _ G0), (getattr_line _ _ _ _ _ G1), (getattr_line _ _ _ _ _ G2),
      (getattr_line _ _ _ _ _ G3), (getattr_line _ _ _ _ _ G4), (getattr_line _ _ _ _ _ G5). cbn [bind].
    change (along RHO10 "rho_logtc_logm0") with 1. change (along RHO10 "rho_early_logm0") with 0.
    change (along RHO10 "rho_early_logtc") with 0. change (along RHO10 "rho_late_logm0") with 0.
    change (along RHO10 "rho_late_logtc") with 0. change (along RHO10 "rho_late_early") with 0.
    rewrite !Rmult_0_r, !Rplus_0_r, Rmult_1_r, Rplus_0_l. reflexivity.
  - rewrite (cov_std_seed p m "logm0" s0 S0) by reflexivity. rewrite (cov_std_seed p m "logtc" s1 S1) by reflexivity.
    rewrite (cov_std_seed p m "early" s2 S2) by reflexivity. rewrite (cov_std_seed p m "late" s3 S3) by reflexivity.
    cbn [bind]. unfold RHO_NAMES. cbn [getattrs].
    rewrite (getattr_seed _ _ _ _ G0), (getattr_seed _ _ _ _ G1), (getattr_seed _ _ _ _ G2),
      (getattr_seed _ _ _ _ G3), (getattr_seed _ _ _ _ G4), (getattr_seed _ _ _ _ G5). cbn [bind map]. reflexivity.
Qed.

Lemma tri_2 {A} {N : Num A} (a b c d e f g h i j : A) : let l := [a; b; c; d; e; f; g; h; i; j] in
  tri l 0 0 = nmul a (nconst 1) /\ tri l 1 1 = nmul b (nconst 1) /\ tri l 1 0 = nmul e (nconst 1) /\
  exists z, tri l 0 1 = nmul z (nconst 0).
Proof.
  cbv zeta. unfold tri.
  replace (Nat.min (Z.to_nat (nth (0 * 4 + 0) (chol_indx 4) 0%Z)) 9) with 0%nat by (vm_compute; reflexivity).
  replace (Nat.min (Z.to_nat (nth (1 * 4 + 1) (chol_indx 4) 0%Z)) 9) with 1%nat by (vm_compute; reflexivity).
  replace (Nat.min (Z.to_nat (nth (1 * 4 + 0) (chol_indx 4) 0%Z)) 9) with 4%nat by (vm_compute; reflexivity).
  refine (conj eq_refl (conj eq_refl (conj eq_refl (ex_intro _ _ eq_refl)))).
Qed.

Lemma corr_10 (h r1 r2 r3 r4 r5 : R) :
  let c := corr_of [1; 1; 1; 1; h; r1; r2; r3; r4; r5] in
  c 0%nat 0%nat = 1 /\ c 1%nat 1%nat = 1 /\ c 1%nat 0%nat = h /\ c 0%nat 1%nat = h.
Proof.
  destruct (tri_2 1 1 1 1 h r1 r2 r3 r4 r5) as (E0 & E1 & E2 & z & E3).
  unfold corr_of, jwhere, neqb. cbv zeta. rewrite E0, E1, E2, E3. cbn.
  unfold Rleb. rewrite !Rmult_1_r, !Rmult_0_r.
  split; [|split; [|split]]; repeat (destruct Rle_dec; cbn); lra.
Qed.

Lemma corr_10_dual (r1 r2 r3 r4 r5 : Dual R) : let one := dlift 1 in
  let c := corr_of [one; one; one; one; mkDual 0 1; r1; r2; r3; r4; r5] in
  c 0%nat 0%nat = dlift 1 /\ c 1%nat 1%nat = dlift 1 /\ c 1%nat 0%nat = dlift 0 /\ c 0%nat 1%nat = mkDual 0 1.
Proof.
  cbv zeta. destruct (tri_2 (dlift 1) (dlift 1) (dlift 1) (dlift 1) (mkDual 0 1) r1 r2 r3 r4 r5) as (E0 & E1 & E2 & z & E3).
  unfold corr_of, jwhere, neqb. rewrite E0, E1, E2, E3. cbn. unfold dleb, dmul, dconst, dlift. cbn.
  unfold Rleb. rewrite !Rmult_1_r, !Rmult_0_r.
  split; [|split; [|split]]; repeat (destruct Rle_dec; cbn); try lra; f_equal; lra.
Qed.

Lemma cov_entry (c : nat -> nat -> R) s0 s1 s2 s3 i j : (i < 2)%nat -> (j < 2)%nat ->
  cov_from_corr 4 c [s0; s1; s2; s3] i j = nth i [s0; s1] 0 * c i j * nth j [s0; s1] 0.
Proof.
  intros Hi Hj. destruct i as [|[|i]]; [| |lia]; (destruct j as [|[|j]]; [| |lia]); cbn; ring.
Qed.
Lemma cov_entry_dual (c : nat -> nat -> Dual R) s0 s1 s2 s3 i j : (i < 2)%nat -> (j < 2)%nat ->
  cov_from_corr 4 c (map dlift [s0; s1; s2; s3]) i j =
  mkDual (nth i [s0; s1] 0 * dval (c i j) * nth j [s0; s1] 0) (nth i [s0; s1] 0 * dder (c i j) * nth j [s0; s1] 0).
Proof.
  intros Hi Hj. destruct i as [|[|i]]; [| |lia]; (destruct j as [|[|j]]; [| |lia]); cbn;
    unfold dadd, dmul, dconst, dlift; cbn; f_equal; ring.
Qed.

Lemma zero_correlation unif unifs normal k p m : legal_pop p -> val p RHO10 = 0 ->
  exists C c s, 0 < s /\
    (forall h, get_diffmahpop_cov (line p (along RHO10) h) m = Ok (C h)) /\
    get_diffmahpop_cov (seed p (along RHO10)) (dlift m) = Ok c /\
    is_derive (fun h => nth 1 (deviation (jax_rng unif unifs normal) k (C h)) 0) 0 (s * normal k 0%nat) /\
    dder (nth 1 (deviation (jax_rng unif unifs normal) k c) (dlift 0)) = s * normal k 0%nat / 2.
Proof.
  intros HL HZ. assert (PC : provides COV p) by (apply pop_provides_part; [cbn; tauto|exact HL]).
  destruct (cov_params_eval p m PC (pop_rho _ HL)) as (s0 & s1 & s2 & s3 & r0 & r1 & r2 & r3 & r4 & r5 &
    E & _ & _ & _ & _ & HS & _ & G0 & _).
  assert (Z : r0 = 0).
  { unfold val, RHO10 in HZ. now rewrite (in_getattr _ _ _ (proj1 PC) G0) in HZ. }
  assert (P0 : 0 < s0) by (rewrite List.Forall_forall in HS; specialize (HS s0 ltac:(cbn; tauto)); lra).
  assert (P1 : 0 < s1) by (rewrite List.Forall_forall in HS; specialize (HS s1 ltac:(cbn; tauto)); lra).
  pose proof (fun h => proj1 (params_line p h m _ _ _ _ _ _ _ _ _ _ HL E Z)) as EL.
  pose proof (proj2 (params_line p 0 m _ _ _ _ _ _ _ _ _ _ HL E Z)) as ED.
  set (l := fun h => [1; 1; 1; 1; h; r1; r2; r3; r4; r5]).
  set (ld := [dlift 1; dlift 1; dlift 1; dlift 1; mkDual 0 1; dlift r1; dlift r2; dlift r3; dlift r4; dlift r5]).
  exists (fun h => (4%nat, cov_from_corr 4 (corr_of (l h)) [s0; s1; s2; s3])),
    (4%nat, cov_from_corr 4 (corr_of ld) (map dlift [s0; s1; s2; s3])), s1.
  split; [exact P1|]. split; [|split; [|split]].
  - intros h. unfold get_diffmahpop_cov. rewrite EL. reflexivity.
  - unfold get_diffmahpop_cov. rewrite ED. reflexivity.
  - apply (is_derive_ext (fun h => h * s1 * normal k 0%nat + sqrt (s1 * s1 - h * s1 * (h * s1)) * normal k 1%nat)).
    + intros h. change R in h. destruct (corr_10 h r1 r2 r3 r4 r5) as (C0 & C1 & C2 & C3).
      cbn [deviation jax_rng fst snd seq map nth]. unfold nsumn. cbn [seq map fold_right cholesky].
      unfold symmetrized. rewrite !cov_entry by lia.
      change (l h) with ([1; 1; 1; 1; h : R; r1; r2; r3; r4; r5] : list R). cbv zeta in C0, C1, C2, C3. fold (l h) in C0, C1, C2, C3 |- *. rewrite C0, C1, C2, C3. cbn.
      replace ((s0 * 1 * s0 + s0 * 1 * s0) / 2) with (s0 * s0) by field.
      rewrite (sqrt_square s0) by lra.
      replace ((s1 * h * s0 + s0 * h * s1) / 2 / s0) with (h * s1) by (field; lra).
      replace ((s1 * 1 * s1 + s1 * 1 * s1) / 2) with (s1 * s1) by field. ring.
    + auto_derive; [|].
      * replace (s1 * s1 + - (0 * s1 * (0 * s1))) with (s1 * s1) by ring. nra.
      * unfold Rdiv. ring.
  - destruct (corr_10_dual (dlift r1) (dlift r2) (dlift r3) (dlift r4) (dlift r5)) as (C0 & C1 & C2 & C3).
    cbn [deviation jax_rng fst snd seq map nth]. unfold nsumn. cbn [seq map fold_right cholesky].
    unfold symmetrized. change (4%nat) with 4%nat.
    rewrite !(cov_entry_dual (corr_of ld) s0 s1 s2 s3) by lia.
    cbv zeta in C0, C1, C2, C3. fold ld in C0, C1, C2, C3. rewrite C0, C1, C2, C3. cbn.
    unfold dadd, dmul, dconst, dlift, ddiv, dsqrt, dsub. cbn.
    replace ((s0 * 1 * s0 + s0 * 1 * s0) / 2) with (s0 * s0) by field.
    rewrite (sqrt_square s0) by lra. field. split; [lra|].
    replace ((s1 * 1 * s1 + s1 * 1 * s1) / 2 - (s1 * 0 * s0 + s0 * 0 * s1) / 2 / s0 *
      ((s1 * 0 * s0 + s0 * 0 * s1) / 2 / s0)) with (s1 * s1) by (field; lra).
    rewrite sqrt_square; lra.
Qed.

(** The published parameters with that correlation set to zero. *)
Definition ZERO_PDICT : rec R :=
  map (fun kv => if String.eqb (fst kv) RHO10 then (fst kv, 0) else kv)
    (flat_map c_pdict
    [ TPCENS_FLEX; TP_SATS;
      LGM0_C0_EARLY; LGM0_C1_EARLY; LGM0_C0_LATE; LGM0_C1_LATE;
      LGM0_C0_EARLY_SATS; LGM0_C1_EARLY_SATS; LGM0_C0_LATE_SATS; LGM0_C1_LATE_SATS;
      LOGTC_EARLY; LOGTC_LATE; EARLY_INDEX_ALPHA; EARLY_INDEX_BETA;
      LATE_INDEX_ALPHA; LATE_INDEX_BETA; FEC; COV ]).

Lemma zero_legal : legal_pop ZERO_PDICT /\ val ZERO_PDICT RHO10 = 0.
Proof.
  assert (L : legal_pop ZERO_PDICT).
  { split.
    - vm_compute. reflexivity.
    - apply in_bounds_shaped.
      + rewrite pop_bounds_names. apply pop_names_nodup.
      + vm_compute. reflexivity.
      + cbn. repeat constructor; unfold inside; cbn; lra. }
  split; [exact L|].
  assert (G : has ZERO_PDICT RHO10 0).
  { apply getattr_in. unfold ZERO_PDICT. cbn. reflexivity. }
  unfold val. now rewrite (in_getattr _ _ _ (legal_pop_nodup _ L) G).
Qed.
