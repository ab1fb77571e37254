(** C75: peak times of whole populations.

    [TN] is the cumulative truncated normal distribution on the reals.  The
    generator [G] is arbitrary. *)

From Coq Require Import Reals String List Bool Arith Lia Lra.
From Verif Require Import Model_Num RealAux Model_Base Model_Kernels Model_Utils Model_PopBase Model_PopData
  Model_PopParams Model_PopKernels Model_PopMC Model_CompFit Model_TpeakPop Spec_Pop Spec_PopMC Spec_TruncNorm
  Spec_TpeakPop Proofs_PopTpeak Proofs_PopKernels Proofs_PopMC Proofs_CompFit Proofs_TpeakPop Proofs_PopProps Proofs_PopCov Proofs_PopAll Props_PopMC.
Import ListNotations.
Local Open Scope R_scope.
Local Open Scope list_scope.

(** Satellites: one draw per halo, with the halo's own mass and time. *)
Theorem C75_sats_one_draw_per_halo : forall (G : rng R) p k (h : list (R * R)), provides TP_SATS p ->
  one_draw_per_halo (mc_tpeak_singlesat TN G p) k h
    (mc_tpeak_sats TN G p k (Arr (map fst h)) (Arr (map snd h))).
Proof. intros G p k h Hp. destruct (sats_eval G p k h Hp) as (u & S & E). exact (draws_spec _ _ u k h S E). Qed.
Print Assumptions C75_sats_one_draw_per_halo.

(** Centrals, truncated normal model. *)
Theorem C75_cens_one_draw_per_halo : forall (G : rng R) p k (h : list (R * R)) t0, provides TPCENS p ->
  one_draw_per_halo (fun q lgm t => mc_tpeak_trunc_singlecen TN G p q lgm t t0) k h
    (mc_tpeak_cens TN G p k (Arr (map fst h)) (Arr (map snd h)) t0).
Proof. intros G p k h t0 Hp. destruct (cens_trunc_eval G p k h t0 Hp) as (u & S & E). exact (draws_spec _ _ u k h S E). Qed.
Print Assumptions C75_cens_one_draw_per_halo.

(** Centrals, flexible model. *)
Theorem C75_cenpop_one_draw_per_halo : forall (G : rng R) p k (h : list (R * R)) t0, provides TPCENS_FLEX p ->
  one_draw_per_halo (fun q lgm t => mc_tpeak_singlecen G p lgm t q t0) k h
    (mc_t_peak_cenpop G p (Arr (map fst h)) (Arr (map snd h)) k t0).
Proof. intros G p k h t0 Hp. destruct (cenpop_eval G p k h t0 Hp) as (u & S & E). exact (draws_spec _ _ u k h S E). Qed.
Print Assumptions C75_cenpop_one_draw_per_halo.

(** The draws of a population have pairwise different streams, none of which is
    that of the key passed in. *)
Theorem C75_distinct_streams : forall single k h run ls tr, one_draw_per_halo single k h run -> run = (ls, tr) ->
  NoDup (map stream tr) /\ ~ In (path k) (map stream tr).
Proof.
  intros single k h run ls tr (tps & -> & _ & _) E. apply (f_equal snd) in E. cbn [snd] in E. subst tr.
  rewrite map_map. cbn [stream key_of path]. unfold stream. cbn [key_of path]. split.
  - apply FinFun.Injective_map_NoDup; [|apply seq_NoDup]. intros a b H. apply app_inv_head in H. congruence.
  - rewrite in_map_iff. intros (i & H & _). apply (f_equal (@List.length nat)) in H. rewrite app_length in H. cbn in H. lia.
Qed.
Print Assumptions C75_distinct_streams.

(** A halo's peak time does not change when the other halos of the population
    are replaced. *)
Theorem C75_halos_do_not_interact : forall single k h h' run run' ls ls' tr tr' i,
  one_draw_per_halo single k h run -> one_draw_per_halo single k h' run' ->
  List.length h = List.length h' -> nth_error h i = nth_error h' i ->
  run = (Ok ls, tr) -> run' = (Ok ls', tr') -> nth_error ls i = nth_error ls' i.
Proof.
  intros single k h h' run run' ls ls' tr tr' i (a & -> & La & Fa) (b & -> & Lb & Fb) L E E1 E2.
  apply (f_equal fst) in E1. apply (f_equal fst) in E2. cbn [fst] in E1, E2. apply Ok_inj in E1, E2. subst ls ls'.
  destruct (nth_error h i) as [[lgm t]|] eqn:N.
  - destruct (Fa i lgm t N) as (x & Hx & Sx). destruct (Fb i lgm t (eq_sym E)) as (y & Hy & Sy).
    rewrite L in Sx. rewrite Sx in Sy. injection Sy as ->. congruence.
  - apply nth_error_None in N. rewrite (proj2 (nth_error_None a i)), (proj2 (nth_error_None b i)) by lia. reflexivity.
Qed.
Print Assumptions C75_halos_do_not_interact.

(** Satellites peak after a tenth of the observation time and before it. *)
Theorem C75_sats_range : forall (G : rng R) p k (h : list (R * R)) i lgm t tps tr, provides TP_SATS p ->
  mc_tpeak_sats TN G p k (Arr (map fst h)) (Arr (map snd h)) = (Ok tps, tr) ->
  nth_error h i = Some (lgm, t) -> 0 <= t ->
  exists tp, nth_error tps i = Some tp /\ 1001/10000 * t <= tp <= 9999/10000 * t.
Proof.
  intros G p k h i lgm t tps tr Hp E N Ht. destruct (C75_sats_one_draw_per_halo G p k h Hp) as (l & E' & _ & F).
  rewrite E in E'. apply (f_equal fst) in E'. cbn [fst] in E'. apply Ok_inj in E'. subst l.
  destruct (F i lgm t N) as (tp & H & S). exists tp. split; [exact H|].
  destruct (sat_tpeak_range p lgm t (uniform G (Split k (List.length h) i)) Hp Ht) as (tp' & E2 & B).
  apply (f_equal fst) in S. unfold mc_tpeak_singlesat, draw_uniform, mbind in S. cbn [fst snd] in S.
  rewrite E2 in S. cbn [mlift fst] in S. apply Ok_inj in S. now subst tp'.
Qed.
Print Assumptions C75_sats_range.

(** Centrals peak after a tenth (flexible model: a twentieth) of the age of the
    universe and before its end, whatever their observation times. *)
Theorem C75_cens_range : forall (G : rng R) p k (h : list (R * R)) t0 tps tr tp, provides TPCENS p -> 0 <= t0 ->
  mc_tpeak_cens TN G p k (Arr (map fst h)) (Arr (map snd h)) t0 = (Ok tps, tr) ->
  In tp tps -> 1001/10000 * t0 <= tp <= 9999/10000 * t0.
Proof.
  intros G p k h t0 tps tr tp Hp Ht E N. destruct (C75_cens_one_draw_per_halo G p k h t0 Hp) as (l & E' & L & F).
  rewrite E in E'. apply (f_equal fst) in E'. cbn [fst] in E'. apply Ok_inj in E'. subst l.
  apply In_nth_error in N. destruct N as (i & N).
  destruct (nth_error h i) as [[lgm t]|] eqn:Nh.
  2:{ apply nth_error_None in Nh. assert (i < List.length tps)%nat by (apply nth_error_Some; congruence). lia. }
  destruct (F i lgm t Nh) as (tp2 & H & S). rewrite N in H. injection H as <-.
  destruct (cen_trunc_range p lgm t t0 (uniform G (Split k (List.length h) i)) Hp Ht) as (tp' & E2 & B).
  apply (f_equal fst) in S. unfold mc_tpeak_trunc_singlecen in S. unfold tpeak_cen_trunc_of_uran in E2.
  destruct (get_singlepdf_params p lgm t t0) as [ls|]; [|discriminate]. cbn in S, E2.
  apply Ok_inj in S, E2. now subst tp tp'.
Qed.
Print Assumptions C75_cens_range.

Theorem C75_cenpop_range : forall (G : rng R) p k (h : list (R * R)) t0 tps tr tp, provides TPCENS_FLEX p -> 0 <= t0 ->
  mc_t_peak_cenpop G p (Arr (map fst h)) (Arr (map snd h)) k t0 = (Ok tps, tr) ->
  In tp tps -> 5/100 * t0 <= tp <= t0.
Proof.
  intros G p k h t0 tps tr tp Hp Ht E N. destruct (C75_cenpop_one_draw_per_halo G p k h t0 Hp) as (l & E' & L & F).
  rewrite E in E'. apply (f_equal fst) in E'. cbn [fst] in E'. apply Ok_inj in E'. subst l.
  apply In_nth_error in N. destruct N as (i & N).
  destruct (nth_error h i) as [[lgm t]|] eqn:Nh.
  2:{ apply nth_error_None in Nh. assert (i < List.length tps)%nat by (apply nth_error_Some; congruence). lia. }
  destruct (F i lgm t Nh) as (tp2 & H & S). rewrite N in H. injection H as <-.
  destruct (cen_tpeak_range p lgm t t0 (uniform G (Split k (List.length h) i)) Hp Ht) as (tp' & E2 & B).
  apply (f_equal fst) in S. unfold mc_tpeak_singlecen, draw_uniform, mbind in S. cbn [fst snd] in S.
  rewrite E2 in S. cbn [mlift fst] in S. apply Ok_inj in S. now subst tp'.
Qed.
Print Assumptions C75_cenpop_range.

(** A single observation time for all halos, or a single mass, counts for every
    halo in two of the three functions. *)
Theorem C75_number_is_constant_column : forall (G : rng R) p k (l : list R) (a t0 : R),
  let col := Arr (repeat a (List.length l)) in
  mc_tpeak_sats TN G p k (Arr l) (Num1 a) = mc_tpeak_sats TN G p k (Arr l) col /\
  mc_tpeak_sats TN G p k (Num1 a) (Arr l) = mc_tpeak_sats TN G p k col (Arr l) /\
  mc_tpeak_cens TN G p k (Arr l) (Num1 a) t0 = mc_tpeak_cens TN G p k (Arr l) col t0 /\
  mc_tpeak_cens TN G p k (Num1 a) (Arr l) t0 = mc_tpeak_cens TN G p k col (Arr l) t0.
Proof.
  intros G p k l a t0 col. unfold mc_tpeak_cens, mc_tpeak_sats, mc_utp_pdf, col.
  split; [apply sats_scale_repeat|].
  rewrite !elementwise_right, !elementwise_left. exact (conj eq_refl (conj eq_refl eq_refl)).
Qed.
Print Assumptions C75_number_is_constant_column.

(** The third one, [mc_t_peak_cenpop], raises instead: it does not accept what
    the other two accept. *)
Theorem C75_cenpop_accepts_number_refuted : exists (G : rng R) (p : rec R) k lgms t t0,
  provides TPCENS_FLEX p /\
  (forall r tr, mc_t_peak_cenpop G p (Arr lgms) (Num1 t) k t0 <> (Ok r, tr)) /\
  exists r tr, mc_t_peak_cenpop G p (Arr lgms) (Arr (repeat t (List.length lgms))) k t0 = (Ok r, tr).
Proof.
  destruct default_legal as (d & E & L).
  assert (P : provides TPCENS_FLEX d) by (apply pop_provides_part; [cbn; auto|exact L]).
  exists some_rng, d, (Seed 0), [12; 13], 10, 13. split; [exact P|]. split; [discriminate|].
  destruct (cenpop_eval some_rng d (Seed 0) [(12, 10); (13, 10)] 13 P) as (u & _ & H).
  eexists. eexists. exact H.
Qed.
Print Assumptions C75_cenpop_accepts_number_refuted.

(** None of the three draws for one halo given as two numbers, nor for columns
    of different lengths: they raise without drawing. *)
Theorem C75_raises : forall (G : rng R) p k t0 x y,
  match x, y with
  | Num1 _, Num1 _ => True
  | Arr a, Arr b => List.length a <> List.length b
  | _, _ => False
  end ->
  (exists e, mc_tpeak_sats TN G p k x y = (Err e, [])) /\
  (exists e, mc_tpeak_cens TN G p k x y t0 = (Err e, [])) /\
  (exists e, mc_t_peak_cenpop G p x y k t0 = (Err e, [])).
Proof.
  intros G p k t0 x y H.
  assert (E : forall Y (f : R -> R -> res Y), exists e, elementwise f x y = Err e).
  { intros Y f. destruct x as [a|a], y as [b|b]; try easy; [now eexists|]. unfold elementwise, extent, lengths.
    cbn [flat_map app forallb]. rewrite (proj2 (Nat.eqb_neq _ _) H). now eexists. }
  split; [|split].
  - unfold mc_tpeak_sats, mc_utp_pdf. destruct (E _ (get_utp_loc p)) as (e & ->). exists e. reflexivity.
  - unfold mc_tpeak_cens. destruct (E _ (fun lgm t => get_singlepdf_params p lgm t t0)) as (e & ->). exists e. reflexivity.
  - destruct x as [a|a], y as [b|b]; try easy; [now eexists|]. unfold mc_t_peak_cenpop, vmap3.
    rewrite (proj2 (Nat.eqb_neq _ _) H). now eexists.
Qed.
Print Assumptions C75_raises.

(** The hypotheses are met by the published parameters. *)
Example C75_example : exists (d : rec R) tps tr, DEFAULT_DIFFMAHPOP_PARAMS = Ok d /\
  mc_tpeak_sats TN some_rng d (Seed 0) (Arr [12; 13]) (Arr [9; 10]) = (Ok tps, tr) /\
  List.length tps = 2%nat /\ tr = [Uniform (Split (Seed 0) 2 0); Uniform (Split (Seed 0) 2 1)].
Proof.
  destruct default_legal as (d & E & L).
  assert (P : provides TP_SATS d) by (apply pop_provides_part; [cbn; auto|exact L]).
  destruct (C75_sats_one_draw_per_halo some_rng d (Seed 0) [(12, 9); (13, 10)] P) as (tps & H & L2 & _).
  exists d, tps. eexists. exact (conj E (conj H (conj L2 eq_refl))).
Qed.

Example C75_example_cens : exists tps tr,
  mc_tpeak_cens TN some_rng (c_pdict TPCENS) (Seed 0) (Arr [12; 13]) (Arr [9; 10]) 13 = (Ok tps, tr) /\ List.length tps = 2%nat.
Proof.
  destruct (C75_cens_one_draw_per_halo some_rng (c_pdict TPCENS) (Seed 0) [(12, 9); (13, 10)] 13 tpcens_defaults)
    as (tps & H & L2 & _).
  exists tps. eexists. exact (conj H L2).
Qed.
