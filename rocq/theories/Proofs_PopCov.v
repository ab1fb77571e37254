(** The covariance of the population model. *)

From Coq Require Import Reals String List Bool Arith ZArith Lia Lra.
From Verif Require Import Model_Num RealAux Model_Base Model_Kernels Model_Utils Model_PopBase Model_PopData
  Model_PopParams Model_PopKernels Proofs_Kernels Spec_Utils Spec_Pop Proofs_PopBase Proofs_PopParams
  Proofs_PopAll Proofs_PopInterp Proofs_PopKernels.
Import ListNotations.
Local Open Scope R_scope.
Local Open Scope string_scope.

Definition RHO_NAMES : list string :=
  [ "rho_logtc_logm0"; "rho_early_logm0"; "rho_early_logtc";
    "rho_late_logm0"; "rho_late_logtc"; "rho_late_early" ].

Lemma cov_rho p : legal_for COV p -> filter is_rho (fields p) = RHO_NAMES.
Proof. intros [Hs _]. unfold fields. rewrite Hs. vm_compute. reflexivity. Qed.

Lemma pop_rho p : legal_pop p -> filter is_rho (fields p) = RHO_NAMES.
Proof. intros [Hs _]. unfold fields. rewrite Hs. vm_compute. reflexivity. Qed.

Lemma incl_pop c : In c [ TPCENS_FLEX; TP_SATS;
      LGM0_C0_EARLY; LGM0_C1_EARLY; LGM0_C0_LATE; LGM0_C1_LATE;
      LGM0_C0_EARLY_SATS; LGM0_C1_EARLY_SATS; LGM0_C0_LATE_SATS; LGM0_C1_LATE_SATS;
      LOGTC_EARLY; LOGTC_LATE; EARLY_INDEX_ALPHA; EARLY_INDEX_BETA;
      LATE_INDEX_ALPHA; LATE_INDEX_BETA; FEC; COV ] -> incl (c_bdict c) pop_bounds.
Proof. intros H x Hx. unfold pop_bounds. apply in_flat_map. eauto. Qed.

Lemma pop_provides_part c p : In c [ TPCENS_FLEX; TP_SATS;
      LGM0_C0_EARLY; LGM0_C1_EARLY; LGM0_C0_LATE; LGM0_C1_LATE;
      LGM0_C0_EARLY_SATS; LGM0_C1_EARLY_SATS; LGM0_C0_LATE_SATS; LGM0_C1_LATE_SATS;
      LOGTC_EARLY; LOGTC_LATE; EARLY_INDEX_ALPHA; EARLY_INDEX_BETA;
      LATE_INDEX_ALPHA; LATE_INDEX_BETA; FEC; COV ] -> legal_pop p -> provides c p.
Proof. intros H. apply pop_provides, incl_pop, H. Qed.

(** ** The matrix *)

Definition corr4 (r : list R) (i j : nat) : R :=
  match i, j with
  | 1%nat, 0%nat | 0%nat, 1%nat => nth 0 r 0
  | 2%nat, 0%nat | 0%nat, 2%nat => nth 1 r 0
  | 2%nat, 1%nat | 1%nat, 2%nat => nth 2 r 0
  | 3%nat, 0%nat | 0%nat, 3%nat => nth 3 r 0
  | 3%nat, 1%nat | 1%nat, 3%nat => nth 4 r 0
  | 3%nat, 2%nat | 2%nat, 3%nat => nth 5 r 0
  | _, _ => 1
  end.

Lemma neqb_R (x y : R) : neqb x y = true <-> x = y.
Proof.
  unfold neqb. cbn [nleb Num_R]. rewrite andb_true_iff, !Rleb_true. lra.
Qed.

Lemma jw_zero (a b : R) : jwhere (neqb (a * 0) 0) b (a * 0) = b.
Proof. replace (neqb (a * 0) 0) with true; [reflexivity|]. symmetry. apply neqb_R. ring. Qed.
Lemma jw_low (a b : R) : jwhere (neqb (a * 1) 0) (b * 0) (a * 1) = a.
Proof.
  unfold jwhere. destruct (neqb (a * 1) 0) eqn:E; [|ring]. apply neqb_R in E. lra.
Qed.
Lemma jw_same (b : bool) (a : R) : jwhere b (a * 1) (a * 1) = a.
Proof. unfold jwhere. destruct b; ring. Qed.

Lemma chol_indx4 : chol_indx 4 = [0; 0; 0; 0; 4; 1; 0; 0; 5; 6; 2; 0; 7; 8; 9; 3]%Z.
Proof. vm_compute. reflexivity. Qed.

Definition cov_matrix (ds r : list R) : nat * nmat :=
  let x := (map (fun _ => 1) ds ++ r)%list in
  let (ndim, M) := cholesky_from_params x in
  let corr : nmat := fun i j => jwhere (neqb (M i j) 0) (M j i) (M i j) in
  (ndim, cov_from_corr ndim corr ds).

Lemma cov_matrix_eval s0 s1 s2 s3 r0 r1 r2 r3 r4 r5 :
  let ds := [s0; s1; s2; s3] in let r := [r0; r1; r2; r3; r4; r5] in
  exists M, cov_matrix ds r = (4%nat, M) /\
    forall i j, (i < 4)%nat -> (j < 4)%nat -> M i j = nth i ds 0 * corr4 r i j * nth j ds 0.
Proof.
  intros ds r. unfold cov_matrix, cholesky_from_params.
  change (chol_ndim (List.length (map (fun _ => 1) ds ++ r)%list)) with 4%nat.
  rewrite chol_indx4. eexists. split; [reflexivity|]. intros i j Hi Hj.
  unfold cov_from_corr, nmdot, nsumn.
  assert (Hc : forall a b, (a < 4)%nat -> (b < 4)%nat ->
    jwhere (neqb (nmul (nth (Nat.min (Z.to_nat (nth (a * 4 + b) [0; 0; 0; 0; 4; 1; 0; 0; 5; 6; 2; 0; 7; 8; 9; 3]%Z 0%Z)) (List.length (map (fun _ => 1) ds ++ r)%list - 1)) (map (fun _ => 1) ds ++ r)%list (nconst 0)) (if Nat.leb b a then nconst 1 else nconst 0)) 0)
      (nmul (nth (Nat.min (Z.to_nat (nth (b * 4 + a) [0; 0; 0; 0; 4; 1; 0; 0; 5; 6; 2; 0; 7; 8; 9; 3]%Z 0%Z)) (List.length (map (fun _ => 1) ds ++ r)%list - 1)) (map (fun _ => 1) ds ++ r)%list (nconst 0)) (if Nat.leb a b then nconst 1 else nconst 0))
      (nmul (nth (Nat.min (Z.to_nat (nth (a * 4 + b) [0; 0; 0; 0; 4; 1; 0; 0; 5; 6; 2; 0; 7; 8; 9; 3]%Z 0%Z)) (List.length (map (fun _ => 1) ds ++ r)%list - 1)) (map (fun _ => 1) ds ++ r)%list (nconst 0)) (if Nat.leb b a then nconst 1 else nconst 0))
    = corr4 r a b).
  { intros a b Ha Hb.
    destruct a as [|[|[|[|]]]]; [| | | |exfalso; lia]; destruct b as [|[|[|[|]]]];
      [| | | |exfalso; lia| | | | |exfalso; lia| | | | |exfalso; lia| | | | |exfalso; lia];
      cbn -[Rmult jwhere neqb]; rewrite ?jw_same, ?jw_zero, ?jw_low; try reflexivity; apply Rmult_1_r. }
  cbn [seq map fold_right].
  rewrite !Hc by lia.
  destruct i as [|[|[|[|]]]]; [| | | |exfalso; lia]; destruct j as [|[|[|[|]]]];
    [| | | |exfalso; lia| | | | |exfalso; lia| | | | |exfalso; lia| | | | |exfalso; lia]; cbn; ring.
Qed.

(** ** Its parameters *)

Definition QS : list string := ["logm0"; "logtc"; "early"; "late"].

Lemma cov_std_ok p lgm q : provides COV p -> In q QS -> exists s, cov_std p lgm q = Ok s /\ 1/100 < s < 100.
Proof.
  intros H Hq. unfold cov_std.
  destruct Hq as [<-|[<-|[<-|[<-|[]]]]]; cbn [append].
  - fld H "cov_lgm_x0_logm0" a Ea Ba. fld H "std_u_logm0_ylo" b Eb Bb. fld H "std_u_logm0_yhi" c Ec Bc.
    eexists. split; [reflexivity|]. apply sigmoid_range; lra.
  - fld H "cov_lgm_x0_logtc" a Ea Ba. fld H "std_u_logtc_ylo" b Eb Bb. fld H "std_u_logtc_yhi" c Ec Bc.
    eexists. split; [reflexivity|]. apply sigmoid_range; lra.
  - fld H "cov_lgm_x0_early" a Ea Ba. fld H "std_u_early_ylo" b Eb Bb. fld H "std_u_early_yhi" c Ec Bc.
    eexists. split; [reflexivity|]. apply sigmoid_range; lra.
  - fld H "cov_lgm_x0_late" a Ea Ba. fld H "std_u_late_ylo" b Eb Bb. fld H "std_u_late_yhi" c Ec Bc.
    eexists. split; [reflexivity|]. apply sigmoid_range; lra.
Qed.

Definition rho_ok (v : R) : Prop := -3/10 < v < 3/10.

Lemma cov_params_eval p lgm : provides COV p -> filter is_rho (fields p) = RHO_NAMES ->
  exists s0 s1 s2 s3 r0 r1 r2 r3 r4 r5,
    get_cov_params p lgm = Ok ([s0; s1; s2; s3], [r0; r1; r2; r3; r4; r5]) /\
    cov_std p lgm "logm0" = Ok s0 /\ cov_std p lgm "logtc" = Ok s1 /\
    cov_std p lgm "early" = Ok s2 /\ cov_std p lgm "late" = Ok s3 /\
    Forall (fun s => 1/100 < s < 100) [s0; s1; s2; s3] /\
    Forall rho_ok [r0; r1; r2; r3; r4; r5] /\
    has p "rho_logtc_logm0" r0 /\ has p "rho_early_logm0" r1 /\ has p "rho_early_logtc" r2 /\
    has p "rho_late_logm0" r3 /\ has p "rho_late_logtc" r4 /\ has p "rho_late_early" r5.
Proof.
  intros H Hr. unfold get_cov_params. rewrite Hr.
  destruct (cov_std_ok p lgm "logm0" H ltac:(cbn; tauto)) as (s0 & E0 & B0).
  destruct (cov_std_ok p lgm "logtc" H ltac:(cbn; tauto)) as (s1 & E1 & B1).
  destruct (cov_std_ok p lgm "early" H ltac:(cbn; tauto)) as (s2 & E2 & B2).
  destruct (cov_std_ok p lgm "late" H ltac:(cbn; tauto)) as (s3 & E3 & B3).
  destruct (provides_field _ _ "rho_logtc_logm0" _ _ H ltac:(in_list)) as (r0 & F0 & G0 & C0).
  destruct (provides_field _ _ "rho_early_logm0" _ _ H ltac:(in_list)) as (r1 & F1 & G1 & C1).
  destruct (provides_field _ _ "rho_early_logtc" _ _ H ltac:(in_list)) as (r2 & F2 & G2 & C2).
  destruct (provides_field _ _ "rho_late_logm0" _ _ H ltac:(in_list)) as (r3 & F3 & G3 & C3).
  destruct (provides_field _ _ "rho_late_logtc" _ _ H ltac:(in_list)) as (r4 & F4 & G4 & C4).
  destruct (provides_field _ _ "rho_late_early" _ _ H ltac:(in_list)) as (r5 & F5 & G5 & C5).
  exists s0, s1, s2, s3, r0, r1, r2, r3, r4, r5.
  rewrite E0, E1, E2, E3. cbn [bind]. unfold RHO_NAMES. cbn [getattrs].
  rewrite F0, F1, F2, F3, F4, F5. cbn [bind].
  refine (conj eq_refl (conj eq_refl (conj eq_refl (conj eq_refl (conj eq_refl (conj _ (conj _ _))))))).
  - repeat constructor; lra.
  - unfold rho_ok. repeat constructor; lra.
  - auto 8.
Qed.

(** ** Positive definiteness *)

Lemma cross_bound (r a b : R) : -3/10 <= r <= 3/10 -> - (3/10) * (a * a + b * b) <= 2 * r * a * b.
Proof.
  intros H. pose proof (Rle_0_sqr (a - b)) as Q1. pose proof (Rle_0_sqr (a + b)) as Q2. unfold Rsqr in *.
  replace (2 * r * a * b) with (2 * r * (a * b)) by ring.
  assert (H1 : 2 * (a * b) <= a * a + b * b) by lra. assert (H2 : - (2 * (a * b)) <= a * a + b * b) by lra.
  destruct (Rle_dec 0 (a * b)) as [Hq|Hq].
  - assert (- (3/10) * (a * b) <= r * (a * b)) by (apply Rmult_le_compat_r; lra). lra.
  - assert (0 <= (3/10 - r) * - (a * b)) by (apply Rmult_le_pos; lra). lra.
Qed.

Lemma quad4 M v : quad_form 4 M v =
  (v 0%nat * M 0%nat 0%nat * v 0%nat + v 0%nat * M 0%nat 1%nat * v 1%nat + v 0%nat * M 0%nat 2%nat * v 2%nat + v 0%nat * M 0%nat 3%nat * v 3%nat) +
  (v 1%nat * M 1%nat 0%nat * v 0%nat + v 1%nat * M 1%nat 1%nat * v 1%nat + v 1%nat * M 1%nat 2%nat * v 2%nat + v 1%nat * M 1%nat 3%nat * v 3%nat) +
  (v 2%nat * M 2%nat 0%nat * v 0%nat + v 2%nat * M 2%nat 1%nat * v 1%nat + v 2%nat * M 2%nat 2%nat * v 2%nat + v 2%nat * M 2%nat 3%nat * v 3%nat) +
  (v 3%nat * M 3%nat 0%nat * v 0%nat + v 3%nat * M 3%nat 1%nat * v 1%nat + v 3%nat * M 3%nat 2%nat * v 2%nat + v 3%nat * M 3%nat 3%nat * v 3%nat).
Proof. unfold quad_form, sum_below, Rsum. cbn [seq map fold_right]. ring. Qed.

Lemma posdef4 s0 s1 s2 s3 r0 r1 r2 r3 r4 r5 M :
  0 < s0 -> 0 < s1 -> 0 < s2 -> 0 < s3 -> Forall rho_ok [r0; r1; r2; r3; r4; r5] ->
  (forall i j, (i < 4)%nat -> (j < 4)%nat -> M i j =
     nth i [s0; s1; s2; s3] 0 * corr4 [r0; r1; r2; r3; r4; r5] i j * nth j [s0; s1; s2; s3] 0) ->
  posdef 4 M.
Proof.
  intros P0 P1 P2 P3 HR HM v (i & Hi & Hv). rewrite quad4. rewrite !HM by lia. cbn [nth corr4].
  rewrite Forall_forall in HR. unfold rho_ok in HR.
  pose proof (HR r0 ltac:(cbn; tauto)). pose proof (HR r1 ltac:(cbn; tauto)). pose proof (HR r2 ltac:(cbn; tauto)).
  pose proof (HR r3 ltac:(cbn; tauto)). pose proof (HR r4 ltac:(cbn; tauto)). pose proof (HR r5 ltac:(cbn; tauto)).
  set (a := s0 * v 0%nat). set (b := s1 * v 1%nat). set (c := s2 * v 2%nat). set (d := s3 * v 3%nat).
  match goal with |- 0 < ?e => replace e with (a * a + b * b + c * c + d * d + 2 * r0 * a * b + 2 * r1 * a * c
    + 2 * r2 * b * c + 2 * r3 * a * d + 2 * r4 * b * d + 2 * r5 * c * d) by (unfold a, b, c, d; ring) end.
  pose proof (cross_bound r0 a b ltac:(lra)). pose proof (cross_bound r1 a c ltac:(lra)).
  pose proof (cross_bound r2 b c ltac:(lra)). pose proof (cross_bound r3 a d ltac:(lra)).
  pose proof (cross_bound r4 b d ltac:(lra)). pose proof (cross_bound r5 c d ltac:(lra)).
  assert (0 < a * a + b * b + c * c + d * d); [|lra].
  pose proof (Rle_0_sqr a) as Qa. pose proof (Rle_0_sqr b) as Qb.
  pose proof (Rle_0_sqr c) as Qc. pose proof (Rle_0_sqr d) as Qd. unfold Rsqr in *.
  assert (Hs : forall s w, 0 < s -> w <> 0 -> 0 < s * w * (s * w)).
  { intros s w Hs Hw. assert (s * w <> 0) by (apply Rmult_integral_contrapositive_currified; lra).
    apply Rsqr_pos_lt in H11. exact H11. }
  destruct i as [|[|[|[|]]]]; [| | | |lia].
  - pose proof (Hs s0 _ P0 Hv). fold a in H11. lra.
  - pose proof (Hs s1 _ P1 Hv). fold b in H11. lra.
  - pose proof (Hs s2 _ P2 Hv). fold c in H11. lra.
  - pose proof (Hs s3 _ P3 Hv). fold d in H11. lra.
Qed.

Lemma cov_eval p lgm : provides COV p -> filter is_rho (fields p) = RHO_NAMES ->
  exists M s0 s1 s2 s3 r0 r1 r2 r3 r4 r5, get_diffmahpop_cov p lgm = Ok (4%nat, M) /\ posdef 4 M /\
    (forall i j, (i < 4)%nat -> (j < 4)%nat -> M i j =
     nth i [s0; s1; s2; s3] 0 * corr4 [r0; r1; r2; r3; r4; r5] i j * nth j [s0; s1; s2; s3] 0) /\
    cov_std p lgm "logm0" = Ok s0 /\ cov_std p lgm "logtc" = Ok s1 /\
    cov_std p lgm "early" = Ok s2 /\ cov_std p lgm "late" = Ok s3 /\
    Forall (fun s => 1/100 < s < 100) [s0; s1; s2; s3] /\
    has p "rho_logtc_logm0" r0 /\ has p "rho_early_logm0" r1 /\ has p "rho_early_logtc" r2 /\
    has p "rho_late_logm0" r3 /\ has p "rho_late_logtc" r4 /\ has p "rho_late_early" r5.
Proof.
  intros H Hr. destruct (cov_params_eval p lgm H Hr) as (s0 & s1 & s2 & s3 & r0 & r1 & r2 & r3 & r4 & r5 &
    E & E0 & E1 & E2 & E3 & FS & FR & HH).
  destruct (cov_matrix_eval s0 s1 s2 s3 r0 r1 r2 r3 r4 r5) as (M & EM & HM).
  exists M, s0, s1, s2, s3, r0, r1, r2, r3, r4, r5.
  split.
  { unfold get_diffmahpop_cov. rewrite E. cbn [bind]. unfold cov_matrix in EM.
    change (map (fun _ : R => #1%num) [s0; s1; s2; s3]) with (map (fun _ : R => 1) [s0; s1; s2; s3]).
    destruct (cholesky_from_params (map (fun _ : R => 1) [s0; s1; s2; s3] ++ [r0; r1; r2; r3; r4; r5])%list) as [n C].
    f_equal. exact EM. }
  split.
  { rewrite Forall_forall in FS.
    pose proof (FS s0 ltac:(cbn; tauto)). pose proof (FS s1 ltac:(cbn; tauto)).
    pose proof (FS s2 ltac:(cbn; tauto)). pose proof (FS s3 ltac:(cbn; tauto)).
    apply (posdef4 s0 s1 s2 s3 r0 r1 r2 r3 r4 r5); try lra; assumption. }
  split; [exact HM|]. auto 15.
Qed.
