(** Generated halos in machine arithmetic (C83). *)

From Coq Require Import Reals ZArith String List Lra Lia.
From Flocq Require Import Core.
From Verif Require Import Model_Num Model_Kernels Model_Base Model_PopBase Model_PopData Model_PopParams
  Model_PopKernels Model_PopMC Model_Float Spec_Kernels Spec_Pop Spec_PopMC Spec_Float Spec_PopFloat
  Proofs_Float4 Proofs_Float5 Proofs_PopBase Proofs_PopKernels Proofs_PopAll Proofs_PopCov Proofs_PopMC Proofs_PopFloat7 Proofs_PopFloat8 Proofs_PopFloat9 Proofs_PopFloat11 Proofs_PopFloat10
  Spec_TruncNorm Proofs_PopTpeak Props_PopFloat.
Import ListNotations.
Local Open Scope R_scope.
Local Open Scope string_scope.

(** No choice of numbers, NaN and infinities included, makes the generators raise:
    whenever the parameter tuple has its fields and the arrays have one length, they
    return.  [A] is any arithmetic. *)
Theorem C83_total : forall A (N : Num A) Tn (G : rng A) g (p : rec A) lgt0,
  shaped (map fst pop_bounds) p -> shapely G ->
  (forall lgm t k otp, exists e l f tr,
    mc_diffmah_params_single Tn G g p lgm t k lgt0 otp = (Ok (e, l, f), tr)) /\
  (forall lgms ts k, List.length ts = List.length lgms ->
    (forall tarr, exists P dm lm tr, mc_pop Tn G g p tarr lgms ts k lgt0 = (Ok (P, dm, lm), tr)) /\
    (exists H tr, mc_diffmah_pop Tn G g p lgms ts k lgt0 None = (Ok H, tr)) /\
    (forall tps, List.length tps = List.length lgms ->
      exists H tr, mc_diffmah_pop Tn G g p lgms ts k lgt0 (Some tps) = (Ok H, tr))).
Proof.
  intros A N Tn G g p lgt0 L S. split; [intros; now apply any_single_total|].
  intros lgms ts k E. split; [intros; now apply any_pop_total|]. split.
  - now apply any_params_total.
  - intros tps Et. now apply any_params_total.
Qed.
Print Assumptions C83_total.

(** Generators that meet the hypotheses below. *)
Definition half_rng : rng xr :=
  mkRng xr (fun _ => Fin (1 / 2)) (fun _ n => repeat (Fin (1 / 2)) n) (fun _ c => repeat (Fin (1 / 10)) (fst c)).
Example C83_draws : shapely half_rng /\ finite_draws half_rng.
Proof.
  split; [split; intros; apply repeat_length|]. split.
  - intros k. exists (1 / 2). reflexivity.
  - intros k c x Hx. apply repeat_spec in Hx. subst x. now exists (1 / 10).
Qed.

(** C83.  One halo.  The population parameters are machine numbers within a ten
    thousandth of their published bounds, as every bounded set is (C81); the mass is
    between 6 and 13.4 in log10, the time of observation at most 15 Gyr, the peak
    time, given or drawn, between the machine number 0.05 and 20 Gyr, the scatter
    finite.  Then both realisations have finite parameters within the published
    bounds, and the early fraction is a proper probability. *)
Theorem C83_generated_halo : forall emin prec F big,
  (20 <= prec)%Z -> (emin <= - prec - 100)%Z -> faithful emin prec F -> bpow radix2 120 <= big ->
  forall Tn (G : rng xr) g (p : rec xr) lgm t k lgt0 otp tp,
  near_legal_pop F (1 / 10000) p -> shapely G -> (forall k' c, all_finite (deviation G k' c)) ->
  machine F lgm -> 6 <= lgm <= 134 / 10 -> machine F t -> 0 <= t <= 15 ->
  match otp with
  | Some x => x = Fin tp
  | None => @peak_time xr (Num_xfl F big) Tn g p (Fin lgm) (Fin t) lgt0 (uniform G (Split k 2 0)) = Ok (Fin tp)
  end -> machine F tp -> rnd F (5 / 100) <= tp <= 20 ->
  exists e l f tr,
    @mc_diffmah_params_single xr (Num_xfl F big) Tn G g p (Fin lgm) (Fin t) k lgt0 otp
      = (Ok (inject e, inject l, Fin f), tr) /\
    machine_legal F e /\ machine_legal F l /\ machine F f /\ 24 / 100 <= f <= 76 / 100.
Proof.
  intros emin prec F big Hp He HA HB. exact (halo_drawn emin prec Hp He F HA big HB).
Qed.
Print Assumptions C83_generated_halo.

(** The peak time drawn from any finite number always qualifies when today is between
    1.26 and 15.8 Gyr; for a satellite, which is drawn through the library's truncated
    normal distribution, when it is observed at 0.6 Gyr or later. *)
Theorem C83_peak_time : forall emin prec F big,
  (20 <= prec)%Z -> (emin <= - prec - 100)%Z -> faithful emin prec F -> bpow radix2 120 <= big ->
  forall Tn g (p : rec xr) lgm t z r, near_legal_pop F (1 / 10000) p ->
  machine F t -> 0 <= t <= 15 -> 1 / 10 <= z <= 12 / 10 -> (g = Sat -> machine_cdf Tn /\ 6 / 10 <= t) ->
  exists tp, @peak_time xr (Num_xfl F big) Tn g p (Fin lgm) (Fin t) (Fin z) (Fin r) = Ok (Fin tp) /\
    machine F tp /\ rnd F (5 / 100) <= tp <= 20.
Proof.
  intros emin prec F big Hp He HA HB. exact (peak_drawn emin prec Hp He F HA big HB).
Qed.
Print Assumptions C83_peak_time.

(** The exact truncated normal distribution, rounded, is such a library function. *)
Example C83_cdf : forall F, ordered_arith F ->
  machine_cdf (fun x a b loc scale =>
    match x, a, b, loc, scale with
    | Fin x, Fin a, Fin b, Fin loc, Fin scale => Fin (rnd F (truncnorm_cdf_R x a b loc scale))
    | _, _, _, _, _ => NaN
    end).
Proof.
  intros F HF a b loc scale Hab Hs. exists (fun x => rnd F (truncnorm_cdf_R x a b loc scale)).
  split; [reflexivity|]. split.
  - intros x. destruct (truncnorm_range x a b loc scale Hab) as [H0 H1].
    split; [rewrite <- (oa_zero F HF)|rewrite <- (oa_one F HF)]; now apply (oa_mono F HF).
  - intros x y H. apply (oa_mono F HF). now apply truncnorm_mono.
Qed.

(** A population with its histories.  Every halo has legal parameters; every tabulated
    rate and log-mass is finite; up to today the mass never decreases and the rate is
    never negative. *)
Theorem C83_population : forall emin prec F big,
  (20 <= prec)%Z -> (emin <= - prec - 100)%Z -> faithful emin prec F -> bpow radix2 120 <= big ->
  forall Tn (G : rng xr) g (p : rec xr) ss lgms ts k t0,
  near_legal_pop F (1 / 10000) p -> shapely G -> finite_draws G ->
  machine_values F 6 (134 / 10) lgms -> machine_values F 0 15 ts -> List.length ts = List.length lgms ->
  (forall s, In s ss -> 1 / 1000 <= s) -> 1 <= lib_log10 F t0 <= 12 / 10 ->
  (g = Sat -> machine_cdf Tn /\ machine_values F (6 / 10) 15 ts) ->
  exists P dm lm tr,
    @mc_pop xr (Num_xfl F big) Tn G g p (map Fin ss) lgms ts k (Fin (lib_log10 F t0)) = (Ok (P, dm, lm), tr) /\
    let n := List.length lgms in
    legal_rows F n P /\ List.length dm = n /\ List.length lm = n /\
    forall i d m, nth_error dm i = Some d -> nth_error lm i = Some m -> tame_history ss t0 d m.
Proof.
  intros emin prec F big Hp He HA HB. exact (population emin prec Hp He F HA big HB).
Qed.
Print Assumptions C83_population.

(** A population of centrals or satellites with the peak times given. *)
Theorem C83_given_peak_times : forall emin prec F big,
  (20 <= prec)%Z -> (emin <= - prec - 100)%Z -> faithful emin prec F -> bpow radix2 120 <= big ->
  forall Tn (G : rng xr) g (p : rec xr) lgms ts tps k lgt0,
  near_legal_pop F (1 / 10000) p -> shapely G -> finite_draws G ->
  machine_values F 6 (134 / 10) lgms -> machine_values F 0 15 ts ->
  machine_values F (rnd F (5 / 100)) 20 tps ->
  List.length ts = List.length lgms -> List.length tps = List.length lgms ->
  exists H tr, @mc_diffmah_pop xr (Num_xfl F big) Tn G g p lgms ts k lgt0 (Some tps) = (Ok H, tr) /\
    let n := List.length lgms in
    legal_rows F n (hp_mah_params H) /\ legal_rows F n (hp_mah_params_early H) /\
    legal_rows F n (hp_mah_params_late H) /\
    List.length (hp_frac_early_cens H) = n /\
    machine_values F (24 / 100) (76 / 100) (hp_frac_early_cens H).
Proof.
  intros emin prec F big Hp He HA HB. exact (given_population emin prec Hp He F HA big HB).
Qed.
Print Assumptions C83_given_peak_times.

Local Lemma slack_small : 0 <= bpow radix2 (-28) <= bpow radix2 (-28) /\ 0 <= bpow radix2 (-57) <= bpow radix2 (-28).
Proof.
  pose proof (bpow_gt_0 radix2 (-28)). pose proof (bpow_gt_0 radix2 (-57)).
  assert (bpow radix2 (-57) <= bpow radix2 (-28)) by (apply bpow_le; lia). lra.
Qed.

(** From the unbounded parameters to the histories, in single and in double precision:
    no tuple of unbounded parameters without NaN, infinite ones included, leads to
    anything but legal halos and well-behaved histories. *)
Theorem C83_from_unbounded : forall F big, F = binary32 /\ big = big32 \/ F = binary64 /\ big = big64 ->
  forall u : rec xr, shaped (map (fun k => "u_" ++ k) (map fst pop_bounds)) u -> nan_free u ->
  exists p, @get_diffmahpop_params_from_u_params xr (Num_xfl F big) u = Ok p /\
  forall Tn (G : rng xr) g ss lgms ts k t0, shapely G -> finite_draws G ->
  machine_values F 6 (134 / 10) lgms -> machine_values F 0 15 ts -> List.length ts = List.length lgms ->
  (forall s, In s ss -> 1 / 1000 <= s) -> 1 <= lib_log10 F t0 <= 12 / 10 ->
  (g = Sat -> machine_cdf Tn /\ machine_values F (6 / 10) 15 ts) ->
  exists P dm lm tr,
    @mc_pop xr (Num_xfl F big) Tn G g p (map Fin ss) lgms ts k (Fin (lib_log10 F t0)) = (Ok (P, dm, lm), tr) /\
    let n := List.length lgms in
    legal_rows F n P /\ List.length dm = n /\ List.length lm = n /\
    forall i d m, nth_error dm i = Some d -> nth_error lm i = Some m -> tame_history ss t0 d m.
Proof.
  intros F big HF u Hs Hn. destruct (C81_population_bounded u Hs Hn) as [(p & E & S & B) (p' & E' & S' & B')].
  destruct slack_small as [S1 S2].
  destruct HF as [[-> ->] | [-> ->]].
  - exists p. split; [exact E|]. intros. eapply (C83_population (-149) 24); try assumption; try lia;
      [exact binary32_faithful|exact big32_large|].
    eapply (bounded_near (-149) 24); [lia|lia|exact binary32_faithful|exact S1|exact S|exact B].
  - exists p'. split; [exact E'|]. intros. eapply (C83_population (-1074) 53); try assumption; try lia;
      [exact binary64_faithful|exact big64_large|].
    eapply (bounded_near (-1074) 53); [lia|lia|exact binary64_faithful|exact S2|exact S'|exact B'].
Qed.
Print Assumptions C83_from_unbounded.

(** Beyond the reach of the model: a log-mass from 17.2 to 20 makes the mass parameter
    of both realisations NaN, whatever the draws. *)
Theorem C83_massive_halos : forall emin prec F big,
  (20 <= prec)%Z -> (emin <= - prec - 100)%Z -> faithful emin prec F -> bpow radix2 120 <= big ->
  forall Tn (G : rng xr) g (p : rec xr) lgm t k lgt0 otp tp,
  near_legal_pop F (1 / 10000) p -> shapely G ->
  machine F lgm -> 172 / 10 <= lgm <= 20 -> machine F t -> 0 <= t <= 15 ->
  match otp with
  | Some x => x = Fin tp
  | None => @peak_time xr (Num_xfl F big) Tn g p (Fin lgm) (Fin t) lgt0 (uniform G (Split k 2 0)) = Ok (Fin tp)
  end -> machine F tp -> 0 <= tp <= 20 ->
  exists e l f tr,
    @mc_diffmah_params_single xr (Num_xfl F big) Tn G g p (Fin lgm) (Fin t) k lgt0 otp = (Ok (e, l, f), tr) /\
    logm0 e = NaN /\ logm0 l = NaN.
Proof.
  intros emin prec F big Hp He HA HB Tn G g p lgm t k lgt0 otp tp L S Ml Hl Mt Ht E Mp Hq.
  destruct (@any_single_total xr (Num_xfl F big) Tn G g p (Fin lgm) (Fin t) k lgt0 otp (proj1 L) S) as (e & l & f & tr & H).
  exists e, l, f, tr. split; [exact H|].
  eapply (over_halos emin prec Hp He F HA big HB); [exact L|exact Ml|exact Hl|exact Mt|exact Ht|exact E|exact Mp|exact Hq|exact H].
Qed.
Print Assumptions C83_massive_halos.

(** A case: all unbounded parameters at infinity, two centrals, three times. *)
Example C83_example : exists p P dm lm tr,
  @get_diffmahpop_params_from_u_params xr (Num_xfl binary32 big32)
    (map (fun k => ("u_" ++ k, PInf)) (map fst pop_bounds)) = Ok p /\
  @mc_pop xr (Num_xfl binary32 big32) (fun _ _ _ _ _ => NaN) half_rng Cen p [Fin 1; Fin 5; Fin 10] [Fin 11; Fin 13] [Fin 9; Fin 10]
    (Seed 0) (Fin (lib_log10 binary32 10)) = (Ok (P, dm, lm), tr) /\
  legal_rows binary32 2 P.
Proof.
  destruct (C81_population_inputs PInf (or_intror eq_refl)) as [Hs Hn].
  destruct (C83_from_unbounded binary32 big32 (or_introl (conj eq_refl eq_refl)) _ Hs Hn) as (p & E & H).
  destruct C83_draws as [D1 D2].
  assert (V : forall z, (Z.abs z < 64)%Z -> machine binary32 (IZR z)) by exact rd32_int.
  assert (L10 : lib_log10 binary32 10 = 1).
  { change (lib_log10 binary32 10) with (rnd binary32 (log10 10)). replace (log10 10) with 1; [exact (rd32_int 1 ltac:(lia))|].
    unfold log10. field. apply Rgt_not_eq. rewrite <- ln_1. apply ln_increasing; lra. }
  destruct (H (fun _ _ _ _ _ => NaN) half_rng Cen [1; 5; 10] [Fin 11; Fin 13] [Fin 9; Fin 10] (Seed 0) 10 D1 D2) as (P & dm & lm & tr & Q & R & _).
  - intros x [<-|[<-|[]]]; eexists; (split; [reflexivity|]); (split; [apply V; lia|lra]).
  - intros x [<-|[<-|[]]]; eexists; (split; [reflexivity|]); (split; [apply V; lia|lra]).
  - reflexivity.
  - intros s [<-|[<-|[<-|[]]]]; lra.
  - rewrite L10. lra.
  - discriminate.
  - exists p, P, dm, lm, tr. split; [exact E|]. split; [exact Q|exact R].
Qed.
