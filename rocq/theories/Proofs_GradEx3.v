(** A regular bin for the published parameters: its scatter is not zero. *)

From Coq Require Import Reals String List Bool Arith ZArith Lia Lra.
From Coquelicot Require Import Coquelicot.
From Verif Require Import Model_Num RealAux Model_Base Model_Kernels Model_Utils Model_PopBase Model_PopData
  Model_PopParams Model_PopKernels Model_PopMC Model_Grad Spec_Kernels Spec_Utils Spec_Pop Spec_PopMC Spec_TruncNorm
  Spec_Grad Proofs_Kernels Proofs_AD Proofs_PopBase Proofs_PopInterp Proofs_PopKernels Proofs_PopCov Proofs_PopTpeak
  Proofs_PopAll Proofs_PopProps Proofs_PopMC Proofs_PopMC2 Proofs_PopLoss Proofs_PopMC3 Proofs_PopMass
  Proofs_PopAD Proofs_PopAD3 Proofs_PopAD4 Proofs_CholAD Proofs_GradEx2.
Import ListNotations.
Local Open Scope R_scope.
Local Open Scope string_scope.

(** Uniform numbers 0; normal numbers 0, but for the fourth of the first halo
    of each bin. *)
Definition UNIF : key -> R := fun _ => 0.
Definition UNIFS : key -> nat -> R := fun _ _ => 0.
Definition NORMAL (k : key) (j : nat) : R :=
  match k with
  | Split (Split _ _ O) _ _ => if (j =? 3)%nat then 1 else 0
  | _ => 0
  end.

Definition G0 : rng R := jax_rng UNIF UNIFS NORMAL.

Lemma dev_other p m (cov : nat * (nat -> nat -> R)) k n i a b : get_diffmahpop_cov p m = Ok cov -> fst cov = 4%nat ->
  deviation G0 (Split (Split k n (S i)) a b) cov = [0; 0; 0; 0].
Proof.
  intros _ H4. unfold G0. cbn [deviation jax_rng]. rewrite H4. unfold nsumn. cbn [seq map fold_right].
  unfold NORMAL. cbn [nadd nmul nconst Num_R]. rewrite !Rmult_0_r, !Rplus_0_r. reflexivity.
Qed.

Lemma dev_first p m cov k n a b : legal_pop p -> get_diffmahpop_cov p m = Ok cov ->
  exists d, 0 < d /\ deviation G0 (Split (Split k n 0) a b) cov = [0; 0; 0; d].
Proof.
  intros HL H. assert (PC : provides COV p) by (apply pop_provides_part; [cbn; tauto|exact HL]).
  destruct (cov_eval p m PC (pop_rho _ HL)) as (M & s0 & s1 & s2 & s3 & r0 & r1 & r2 & r3 & r4 & r5 & EM & PM & FM & _).
  rewrite EM in H. apply Ok_inj in H. subst cov.
  assert (SM : symm 4 M). { intros i j Hi Hj. rewrite !FM by assumption. rewrite corr4_sym. ring. }
  assert (ES : forall i j, (i < 4)%nat -> (j < 4)%nat -> symmetrized M i j = M i j).
  { intros i j Hi Hj. unfold symmetrized. cbn. rewrite (SM j i) by assumption. field. }
  assert (SS : symm 4 (symmetrized M)).
  { intros i j Hi Hj. rewrite !ES by assumption. now apply SM. }
  assert (PS : posdef 4 (symmetrized M)).
  { intros w Hw. specialize (PM w Hw). unfold quad_form in *.
    rewrite (sumb_ext 4 _ (fun i0 => sum_below 4 (fun j0 => w i0 * M i0 j0 * w j0))); [exact PM|].
    intros x Hx. apply sumb_ext. intros y Hy. now rewrite ES. }
  destruct (cholesky_factor 4 _ SS PS) as (L0 & L1 & _). cbv zeta in L0, L1.
  set (L := cholesky 4 (symmetrized M)) in *.
  exists (L 3%nat 3%nat). split; [apply L1; lia|].
  unfold G0. cbn [deviation jax_rng fst snd]. fold L. unfold nsumn. cbn [seq map fold_right].
  rewrite (L0 0%nat 3%nat), (L0 1%nat 3%nat), (L0 2%nat 3%nat) by lia.
  unfold NORMAL. cbn [Nat.eqb nadd nmul nconst Num_R].
  rewrite !Rmult_0_r, !Rmult_0_l, !Rplus_0_r, !Rplus_0_l, Rmult_1_r. reflexivity.
Qed.

(** A larger late index makes the frozen mass of an early peak smaller. *)
Lemma late_shift (u : DiffmahUParams R) d s : 0 < d ->
  let h := fun x => get_bounded_mah_params (mkUParams (u_logm0 u) (u_logtc u) (u_early_index u) x (u_t_peak u)) in
  t_peak (h 0) < 10 -> 0 < t_peak (h 0) -> t_peak (h 0) <= s ->
  log_mah_kern (h (u_late_index u + d)) s 1 < log_mah_kern (h (u_late_index u)) s 1.
Proof.
  intros Hd h T1 T0 Ts.
  assert (ET : forall x, t_peak (h x) = t_peak (h 0)) by reflexivity.
  rewrite !log_mah_kern_after by (rewrite ET; exact Ts). rewrite !log_mah_noq_R. unfold plaw.
  rewrite (ET (u_late_index u)), (ET (u_late_index u + d)).
  assert (LT : log10 (t_peak (h 0)) < 1) by (rewrite <- log10_10; now apply log10_lt).
  assert (LL : late_index (h (u_late_index u)) < late_index (h (u_late_index u + d))).
  { unfold h, get_bounded_mah_params, get_early_late, get_bounded_diffmah_param. cbn -[sigmoid Rdiv].
    rewrite !sig_R. pose proof (logistic_lt (BOUNDING_K * (u_late_index u - 1/2 * (1/10 + 5)))
      (BOUNDING_K * (u_late_index u + d - 1/2 * (1/10 + 5)))) as Q.
    assert (Q' : BOUNDING_K * (u_late_index u - 1/2 * (1/10 + 5)) < BOUNDING_K * (u_late_index u + d - 1/2 * (1/10 + 5)))
      by (unfold BOUNDING_K; cbn; lra).
    specialize (Q Q'). change BOUNDING_K with (1/10) in Q. lra. }
  assert (LE : early_index (h (u_late_index u)) < early_index (h (u_late_index u + d))).
  { assert (E : forall x, early_index (h x) = late_index (h x) + (10 - late_index (h x)) * logistic (BOUNDING_K * (u_early_index u - 0)))
      by reflexivity.
    rewrite !E. pose proof (logistic_pos (BOUNDING_K * (u_early_index u - 0))).
    pose proof (logistic_lt1 (BOUNDING_K * (u_early_index u - 0))).
    set (w := logistic _) in *. nra. }
  assert (EC : forall x, logtc (h x) = logtc (h 0)) by reflexivity.
  assert (EM : forall x, logm0 (h x) = logm0 (h 0)) by reflexivity.
  rewrite !(EC (_ + _)), !(EM (_ + _)), (EC (u_late_index u)), (EM (u_late_index u)). unfold idx.
  set (w := logistic _). pose proof (logistic_pos (35 / 10 * (log10 (t_peak (h 0)) - logtc (h 0)))) as W0.
  pose proof (logistic_lt1 (35 / 10 * (log10 (t_peak (h 0)) - logtc (h 0)))) as W1. fold w in W0, W1.
  set (e := early_index (h (u_late_index u))) in *. set (e' := early_index (h (u_late_index u + d))) in *.
  set (l := late_index (h (u_late_index u))) in *. set (l' := late_index (h (u_late_index u + d))) in *.
  assert (e + (l - e) * w < e' + (l' - e') * w).
  { pose proof (Rmult_lt_compat_r (1 - w) e e' ltac:(lra) LE). pose proof (Rmult_lt_compat_r w l l' W0 LL). lra. }
  nra.
Qed.

(** A weighted variance with two different values of positive weight. *)
Lemma total_nonneg l : (forall x, In x l -> 0 <= x) -> 0 <= total l.
Proof.
  induction l as [|a l IH]; intros H; cbn; [lra|]. pose proof (H a (or_introl eq_refl)).
  specialize (IH (fun x Hx => H x (or_intror Hx))). unfold total in IH. lra.
Qed.
Lemma total_ge l x : (forall x, In x l -> 0 <= x) -> In x l -> x <= total l.
Proof.
  induction l as [|a l IH]; intros H; cbn; [easy|]. intros [->|Hx].
  - pose proof (total_nonneg l (fun x Hx => H x (or_intror Hx))) as Q. unfold total in Q. lra.
  - pose proof (H a (or_introl eq_refl)). specialize (IH (fun x Hx => H x (or_intror Hx)) Hx). unfold total in IH. lra.
Qed.
Lemma variance_pos s w1 x1 w2 x2 : probability_weights s -> In (w1, x1) s -> In (w2, x2) s ->
  0 < w1 -> 0 < w2 -> x1 <> x2 -> 0 < weighted_variance s.
Proof.
  intros [HW _] H1 H2 P1 P2 Hne. unfold weighted_variance. set (m := weighted_mean s).
  assert (N : forall v, In v (map (fun wx => fst wx * (snd wx - m) ^ 2) s) -> 0 <= v).
  { intros v Hv. apply in_map_iff in Hv. destruct Hv as ([w x] & <- & Hin). cbn [fst snd].
    pose proof (HW w x Hin). apply Rmult_le_pos; [assumption|]. apply pow2_ge_0. }
  pose proof (total_ge _ _ N (in_map (fun wx => fst wx * (snd wx - m) ^ 2) _ _ H1)) as G1.
  pose proof (total_ge _ _ N (in_map (fun wx => fst wx * (snd wx - m) ^ 2) _ _ H2)) as G2.
  cbn [fst snd] in G1, G2.
  destruct (Req_dec x1 m) as [E|E].
  - assert (0 < (x2 - m) ^ 2) by (apply pow2_gt_0; lra). nra.
  - assert (0 < (x1 - m) ^ 2) by (apply pow2_gt_0; lra). nra.
Qed.

Lemma sample_early r j h : In h r ->
  In (pr_frac h / INR (length r), nth j (pr_log_mah_early h) 0) (sample_at r j).
Proof. intros H. unfold sample_at. apply in_or_app. left. apply in_map_iff. now exists h. Qed.

Lemma mean_unique m0 tc ix (p : rec R) lgm t tp m m' : is_mean m0 tc ix p lgm t tp m -> is_mean m0 tc ix p lgm t tp m' -> m = m'.
Proof.
  intros (A1 & A2 & A3 & A4 & A5) (B1 & B2 & B3 & B4 & B5). rewrite A1 in B1. rewrite A2 in B2. rewrite A3 in B3. rewrite A4 in B4.
  apply Ok_inj in B1, B2, B3, B4. destruct m, m'. cbn in *. congruence.
Qed.

Lemma peak_12 g tp : peak_time truncnorm_cdf_R g ALL_PDICT 12 10 1 0 = Ok tp -> 1/2 <= tp <= 1001/1000.
Proof.
  intros H. destruct g; [rewrite (proj2 (cen_draw [])) in H|rewrite (proj2 sat_draw) in H]; apply Ok_inj in H; lra.
Qed.

(** The scatter of the bin is not zero. *)
Lemma scatter_pos g k mean std fp : fst (predict_mah_moments_singlebin truncnorm_cdf_R G0 g ALL_PDICT [10] 12 10 k 1)
    = Ok (mean, std, fp) -> forall s, In s std -> 0 < s.
Proof.
  intros H s Hs.
  destruct (predict_mah_moments_singlebin truncnorm_cdf_R G0 g ALL_PDICT [10] 12 10 k 1) as [q tr] eqn:E. cbn [fst] in H. subst q.
  apply predict_inv in E; [|exact all_legal]. destruct E as (_ & r & Lr & HH & _ & Ls & _ & HJ).
  destruct std as [|s0 [|s1 std]]; try discriminate. destruct Hs as [<-|[]].
  destruct (HJ 0%nat ltac:(cbn; lia)) as (PW & _ & ES). cbn [nth] in ES. rewrite ES. apply sqrt_lt_R0.
  destruct (HH 0%nat ltac:(lia)) as (h0 & t0 & N0 & M0). destruct (HH 1%nat ltac:(lia)) as (h1 & t1 & N1 & M1).
  apply single_mah_inv in M0, M1. destruct M0 as (P0 & X0 & _). destruct M1 as (P1 & X1 & _).
  rewrite mah_singlehalo_map in X0, X1. injection X0 as _ X0. injection X1 as _ X1.
  apply single_inv in P0, P1.
  destruct P0 as (tp & me & _ & cov & T0 & ME & _ & C0 & _ & S0 & _ & F0 & _).
  destruct P1 as (tp' & me' & _ & cov' & T1 & ME' & _ & C1 & F4 & S1 & _ & F1 & _).
  change (uniform G0 (Split (Split k 200 0) 2 0)) with 0 in T0. change (uniform G0 (Split (Split k 200 1) 2 0)) with 0 in T1.
  rewrite T0 in T1. apply Ok_inj in T1. subst tp'. rewrite C0 in C1. apply Ok_inj in C1. subst cov'.
  pose proof (mean_unique _ _ _ _ _ _ _ _ _ ME ME') as <-.
  apply peak_12 in T0.
  assert (TM : t_peak me = tp) by apply ME.
  rewrite (dev_other ALL_PDICT 12 cov k 200 0 2 0 C0 F4) in S1.
  destruct (dev_first ALL_PDICT 12 cov k 200 2 0 all_legal C0) as (d & Hd & DF). rewrite DF in S0.
  pose proof (scattered_tp_R _ _ _ S0 ltac:(lra)) as TP0.
  destruct S0 as (a1 & a2 & a3 & a4 & rest & EA & B0). injection EA as <- <- <- <- <-. cbv zeta in B0.
  destruct S1 as (b1 & b2 & b3 & b4 & rest & EB & B1). injection EB as <- <- <- <- <-. cbv zeta in B1.
  cbn [nadd Num_R] in B0, B1. rewrite !Rplus_0_r in B0, B1.
  set (u := get_unbounded_mah_params me) in *.
  assert (TH : t_peak (get_bounded_mah_params (mkUParams (u_logm0 u) (u_logtc u) (u_early_index u) 0 (u_t_peak u))) = tp).
  { rewrite <- TM, <- TP0, B0, !bounded_t_peak. reflexivity. }
  pose proof (late_shift u d 10 Hd) as LS. cbv beta zeta in LS. rewrite TH in LS.
  specialize (LS ltac:(lra) ltac:(lra) ltac:(lra)). rewrite <- B0 in LS.
  rewrite (Rplus_0_r (u_late_index u)) in B1. rewrite <- B1 in LS.
  destruct (frac_early_range ALL_PDICT 12 10) as (f & Ef & Bf); [apply pop_components_provided; [in_list|exact all_legal]|].
  rewrite Ef in F0, F1. apply Ok_inj in F0, F1.
  assert (W : 0 < f / 200) by lra.
  apply nth_error_In in N0, N1.
  pose proof (sample_early r 0 h0 N0) as I0. pose proof (sample_early r 0 h1 N1) as I1.
  rewrite <- X0 in I0. rewrite <- X1 in I1. rewrite <- F0 in I0. rewrite <- F1 in I1.
  assert (EL : INR (length r) = 200) by (rewrite Lr; cbn; lra). rewrite EL in I0, I1. cbn [map nth] in I0, I1.
  apply (variance_pos _ _ _ _ _ PW I0 I1 W W).
  unfold logmh_at_t_obs. intros Q. lra.
Qed.

(** ** A regular bin and a regular list of bins *)

Definition BIN (mean std fp : R) : Bin R := mkBin [10] 12 10 [mean] [std] [fp].

Lemma bin_regular g mean std fp k : regular_bin UNIF UNIFS NORMAL g ALL_PDICT 1 (BIN mean std fp) k.
Proof.
  unfold regular_bin, BIN. cbn [bin_tarr bin_lgm_obs bin_t_obs].
  refine (conj _ (conj _ (conj _ _))).
  - discriminate.
  - intros s [<-|[]]. lra.
  - intros i _. apply regular_halo_12.
  - intros. eapply scatter_pos; eassumption.
Qed.

Lemma bins_regular g mean std fp k : regular_bins UNIF UNIFS NORMAL g ALL_PDICT [BIN mean std fp] k 1.
Proof.
  split; [discriminate|]. intros [|i] b H; [|now destruct i]. injection H as <-. apply bin_regular.
Qed.

Lemma bins_shaped mean std fp : well_shaped [BIN mean std fp].
Proof. intros b [<-|[]]. split; reflexivity. Qed.

Lemma all_smooth : smooth_pop ALL_PDICT.
Proof.
  split; [exact all_legal|]. intros k Hk. cbn in Hk.
  repeat (destruct Hk as [<-|Hk]; [published; lra|]). destruct Hk.
Qed.

(** ** The unbounded parameters that stand for the published ones *)

Lemma replace_all {A} (acc q : rec A) : NoDup (fields acc) -> fields q = fields acc -> replace acc q = Ok q.
Proof.
  intros H1 H2. pose proof (replace_loop_all [q] acc H1) as H. cbn [concat] in H. rewrite app_nil_r in H.
  specialize (H H2). cbn [replace_loop] in H. destruct (replace acc q); [exact H|discriminate].
Qed.

Lemma all_self : replace ALL_PDICT ALL_PDICT = Ok ALL_PDICT.
Proof.
  apply replace_all; [|reflexivity]. destruct all_legal as [HS _]. unfold fields. unfold shaped in HS. rewrite HS.
  exact pop_names_nodup.
Qed.

Lemma published_u : exists d u : rec R, DEFAULT_DIFFMAHPOP_U_PARAMS = Ok d /\ replace d u = Ok u /\
  get_diffmahpop_params_from_u_params u = Ok ALL_PDICT /\ unbounded_pop u.
Proof.
  destruct (proj2 (pop_round_trip_iff ALL_PDICT all_legal)) as (u & Eu & Ep).
  { intros q v Hq Hv. apply in_getattr in Hv; [|exact (legal_pop_nodup _ all_legal)].
    apply getattr_in. rewrite <- Hv. cbn in Hq. unfold ALL_PDICT.
    repeat (destruct Hq as [<-|Hq]; [reflexivity|]). destruct Hq. }
  destruct default_u_params_shaped as (d & Ed & Sd). exists d, u.
  destruct (to_u_eval ALL_PDICT) as (ps & us & _ & _ & _ & Fu & Eu').
  { rewrite <- pop_bounds_names. exact (proj1 all_legal). }
  rewrite Eu' in Eu. apply Ok_inj in Eu.
  assert (Su : fields u = POP_UNAMES) by (rewrite <- Eu, (fields_concat c_unames _ _ Fu); symmetry; exact pop_unames_concat).
  refine (conj Ed (conj _ (conj Ep _))).
  - apply replace_all; [unfold fields; rewrite Sd; apply pop_unames_nodup|]. now rewrite Su.
  - unfold unbounded_pop. rewrite pop_bounds_names. exact Su.
Qed.

Lemma corr_2_posdef : posdef 2 (fun i j => if Nat.eqb i j then 1 else 1/2).
Proof.
  intros v (i & Hi & Hv). unfold quad_form, sum_below. cbn. set (a := v 0%nat) in *. set (b := v 1%nat) in *.
  assert (Q : a <> 0 \/ b <> 0) by (destruct i as [|[|i]]; [left|right|lia]; exact Hv).
  destruct Q as [Q|Q]; apply Rsqr_pos_lt in Q; unfold Rsqr in Q; pose proof (Rle_0_sqr (a + b)); pose proof (Rle_0_sqr a);
    pose proof (Rle_0_sqr b); unfold Rsqr in *; lra.
Qed.
