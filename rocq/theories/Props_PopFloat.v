(** Bounding of the population parameters in machine arithmetic (C81). *)

From Coq Require Import Reals ZArith String List Lra Lia.
From Flocq Require Import Core.
From Verif Require Import Model_Num Model_Base Model_PopBase Model_PopData Model_PopParams Model_Float
  Spec_Pop Spec_Float Spec_PopFloat Proofs_Float5 Proofs_FloatQ Proofs_PopBase Proofs_PopParams
  Proofs_PopAll Proofs_PopFloat3 Proofs_PopFloat4 Proofs_PopFloat5.
Import ListNotations.
Local Open Scope R_scope.
Local Open Scope string_scope.

Local Lemma slack32_value : fr slack32 = bpow radix2 (-28).
Proof. unfold fr, slack32. cbn [fst snd]. change (bpow radix2 (-28)) with (/ 268435456). change (2 ^ 28)%Z with 268435456%Z. lra. Qed.

Local Lemma slack64_value : fr slack64 = bpow radix2 (-57).
Proof.
  unfold fr, slack64. cbn [fst snd]. change (bpow radix2 (-57)) with (/ 144115188075855872).
  change (2 ^ 57)%Z with 144115188075855872%Z. lra.
Qed.

(** C81.  In single precision every public bounding function maps a tuple without NaN,
    infinite values included, to finite machine numbers within the closed published
    bounds.  Twelve mass parameters can exceed the upper one, by at most 2^-28. *)
Theorem C81_bounded_single_precision : forall c b, In (c, b) (machine_bounders binary32 big32) ->
  forall u, shaped (map (fun k => "u_" ++ k) (map fst (c_bdict c))) u -> nan_free u ->
  exists p, b u = Ok p /\ shaped (map fst (c_bdict c)) p /\
    in_machine_bounds binary32 overshooting32 (bpow radix2 (-28)) (c_bdict c) p.
Proof.
  intros c b H u Hs Hn. rewrite <- slack32_value.
  assert (Hw : wfc c).
  { destruct (bounders_act binary32 big32 c b H) as [[Hw _] | [-> _]]; [exact Hw | auto with wf]. }
  rewrite (proj1 (proj2 Hw)) in *.
  exact (tuple_bounds (-149) 24 ltac:(lia) ltac:(lia) binary32 binary32_faithful big32 big32_large
    overshooting32 slack32 ltac:(reflexivity) check32 c b H u Hs Hn).
Qed.
Print Assumptions C81_bounded_single_precision.

(** In double precision four parameters can, by at most 2^-57. *)
Theorem C81_bounded_double_precision : forall c b, In (c, b) (machine_bounders binary64 big64) ->
  forall u, shaped (map (fun k => "u_" ++ k) (map fst (c_bdict c))) u -> nan_free u ->
  exists p, b u = Ok p /\ shaped (map fst (c_bdict c)) p /\
    in_machine_bounds binary64 overshooting64 (bpow radix2 (-57)) (c_bdict c) p.
Proof.
  intros c b H u Hs Hn. rewrite <- slack64_value.
  assert (Hw : wfc c).
  { destruct (bounders_act binary64 big64 c b H) as [[Hw _] | [-> _]]; [exact Hw | auto with wf]. }
  rewrite (proj1 (proj2 Hw)) in *.
  exact (tuple_bounds (-1074) 53 ltac:(lia) ltac:(lia) binary64 binary64_faithful big64 big64_large
    overshooting64 slack64 ltac:(reflexivity) check64 c b H u Hs Hn).
Qed.
Print Assumptions C81_bounded_double_precision.

(** The same for the whole population parameter set. *)
Theorem C81_population_bounded : forall u : rec xr,
  shaped (map (fun k => "u_" ++ k) (map fst pop_bounds)) u -> nan_free u ->
  (exists p, @get_diffmahpop_params_from_u_params xr (Num_xfl binary32 big32) u = Ok p /\
    shaped (map fst pop_bounds) p /\
    in_machine_bounds binary32 overshooting32 (bpow radix2 (-28)) pop_bounds p) /\
  (exists p, @get_diffmahpop_params_from_u_params xr (Num_xfl binary64 big64) u = Ok p /\
    shaped (map fst pop_bounds) p /\
    in_machine_bounds binary64 overshooting64 (bpow radix2 (-57)) pop_bounds p).
Proof.
  intros u Hs Hn. rewrite <- slack32_value, <- slack64_value.
  rewrite pop_bounds_names in *. change (map (fun k => "u_" ++ k) POP_NAMES) with POP_UNAMES in Hs. split.
  - exact (pop_bounded (-149) 24 ltac:(lia) ltac:(lia) binary32 binary32_faithful big32 big32_large
      overshooting32 slack32 ltac:(reflexivity) check32 u Hs Hn).
  - exact (pop_bounded (-1074) 53 ltac:(lia) ltac:(lia) binary64 binary64_faithful big64 big64_large
      overshooting64 slack64 ltac:(reflexivity) check64 u Hs Hn).
Qed.
Print Assumptions C81_population_bounded.

(** Tuples that meet the hypotheses: all values finite, or all infinite. *)
Example C81_population_inputs : forall x, x = Fin 3 \/ x = PInf ->
  let u := map (fun k => ("u_" ++ k, x)) (map fst pop_bounds) in
  shaped (map (fun k => "u_" ++ k) (map fst pop_bounds)) u /\ nan_free u.
Proof.
  intros x Hx u. split.
  - unfold shaped, u. rewrite map_map. reflexivity.
  - intros k v Hv. unfold has, u in Hv. apply in_map_iff in Hv as (k' & E & _).
    injection E as _ <-. destruct Hx as [-> | ->]; discriminate.
Qed.

(** The excess is real: an unbounded value of 2000 or more for one of the twelve
    parameters (the four in double precision) is mapped above the upper bound, and
    mapping the result back gives infinity. *)
Theorem C81_overshoot : forall c,
  In c [ LGM0_C0_EARLY; LGM0_C1_EARLY; LGM0_C0_LATE; LGM0_C1_LATE;
         LGM0_C0_EARLY_SATS; LGM0_C1_EARLY_SATS; LGM0_C0_LATE_SATS; LGM0_C1_LATE_SATS ] ->
  forall k lo hi, In (k, (lo, hi)) (c_bdict c) ->
  forall F big, F = binary32 /\ big = big32 /\ In k overshooting32 \/
                F = binary64 /\ big = big64 /\ In k overshooting64 ->
  forall u x, shaped (map (fun k => "u_" ++ k) (map fst (c_bdict c))) u ->
  has u ("u_" ++ k) x -> x = PInf \/ (exists r, x = Fin r /\ 2000 <= r) ->
  exists p r v, @get_bounded_params xr (Num_xfl F big) c u = Ok p /\
    has p k (Fin r) /\ rnd F hi < r /\
    @get_unbounded_params xr (Num_xfl F big) c p = Ok v /\ has v ("u_" ++ k) PInf.
Proof.
  intros c Hc k lo hi I F big HF u x Hs Hx HL.
  assert (Hc' : In c SINGLES).
  { cbn [In] in Hc. cbn [In SINGLES]. tauto. }
  assert (Hw : wfc c).
  { pose proof singles_wf as W. rewrite List.Forall_forall in W. now apply W. }
  rewrite (proj1 (proj2 Hw)) in Hs.
  destruct HF as [(-> & -> & Ik) | (-> & -> & Ik)].
  - exact (overshoot (-149) 24 ltac:(lia) ltac:(lia) big32 big32_large overshooting32 all_overshoot32
      c k lo hi u x Hc' I Ik Hs Hx HL).
  - exact (overshoot (-1074) 53 ltac:(lia) ltac:(lia) big64 big64_large overshooting64 all_overshoot64
      c k lo hi u x Hc' I Ik Hs Hx HL).
Qed.
Print Assumptions C81_overshoot.

(** Each of the twelve is a parameter of one of those functions. *)
Example C81_overshoot_all : List.Forall (fun k => exists c lo hi,
  In c [ LGM0_C0_EARLY; LGM0_C1_EARLY; LGM0_C0_LATE; LGM0_C1_LATE;
         LGM0_C0_EARLY_SATS; LGM0_C1_EARLY_SATS; LGM0_C0_LATE_SATS; LGM0_C1_LATE_SATS ] /\
  In (k, (lo, hi)) (c_bdict c)) overshooting32.
Proof.
  unfold overshooting32, four_populations. cbn [flat_map app].
  Ltac pick c := exists c; eexists; eexists; split; [cbn [In]; tauto | cbn; tauto].
  repeat (apply List.Forall_cons;
    [first [ pick LGM0_C0_EARLY | pick LGM0_C1_EARLY | pick LGM0_C0_LATE | pick LGM0_C1_LATE
           | pick LGM0_C0_EARLY_SATS | pick LGM0_C1_EARLY_SATS | pick LGM0_C0_LATE_SATS
           | pick LGM0_C1_LATE_SATS ]|]).
  apply List.Forall_nil.
Qed.

(** So the closed bounds themselves hold in neither precision. *)
Theorem C81_upper_bound_refuted : forall F big, F = binary32 /\ big = big32 \/ F = binary64 /\ big = big64 ->
  exists c b u p k lo hi r,
  In (c, b) (machine_bounders F big) /\
  shaped (map (fun k => "u_" ++ k) (map fst (c_bdict c))) u /\ (forall n v, has u n v -> v = Fin 2000) /\
  b u = Ok p /\ In (k, (lo, hi)) (c_bdict c) /\ has p k (Fin r) /\ rnd F hi < r.
Proof.
  intros F big HF.
  pose (c := LGM0_C0_EARLY). pose (u := map (fun k => ("u_" ++ k, Fin 2000)) (map fst (c_bdict c))).
  assert (Hs : shaped (map (fun k => "u_" ++ k) (map fst (c_bdict c))) u).
  { unfold shaped, u. rewrite map_map. reflexivity. }
  assert (I : exists lo hi, In ("lgm0pop_c0_clip_c1_early", (lo, hi)) (c_bdict c)).
  { eexists. eexists. cbn. tauto. }
  destruct I as (lo & hi & I).
  assert (Hx : has u ("u_" ++ "lgm0pop_c0_clip_c1_early") (Fin 2000)).
  { unfold has, u. apply in_map_iff. exists "lgm0pop_c0_clip_c1_early". split; [reflexivity|].
    apply (in_map fst) in I. exact I. }
  destruct (C81_overshoot c ltac:(cbn [In]; tauto) _ lo hi I F big) with (u := u) (x := Fin 2000)
    as (p & r & v & Ep & Hr & Hlt & _); auto.
  { destruct HF as [[-> ->] | [-> ->]]; [left | right]; (split; [reflexivity | split; [reflexivity|]]);
      cbn; tauto. }
  { right. exists 2000. split; [reflexivity | lra]. }
  exists c, (@get_bounded_params xr (Num_xfl F big) c), u, p, "lgm0pop_c0_clip_c1_early", lo, hi, r.
  split. { unfold machine_bounders. cbn [map In app]. tauto. }
  split; [exact Hs|]. split.
  { intros n w Hw. unfold has, u in Hw. apply in_map_iff in Hw as (k' & E & _). now injection E. }
  auto.
Qed.
Print Assumptions C81_upper_bound_refuted.

(** Away from saturation the bounded value is within 200 units of rounding, on the
    scale of the bounds, of the exact one. *)
Theorem C81_accuracy : forall emin prec F big,
  (20 <= prec)%Z -> (emin <= - prec - 100)%Z -> faithful emin prec F -> bpow radix2 120 <= big ->
  forall c b b' ub, In (c, b) (machine_bounders F big) -> In (c, b', ub) bounding_pairs ->
  forall u : rec R, unbounded_for c u -> (forall k v, has u k v -> Rabs v <= 100) ->
  exists p q, b (map (fun kv => (fst kv, Fin (snd kv))) u) = Ok p /\ b' u = Ok q /\
    forall k lo hi, In (k, (lo, hi)) (c_bdict c) ->
      exists x y, has p k (Fin x) /\ has q k y /\
        Rabs (x - y) <= 200 * Rmax 1 (Rmax (Rabs lo) (Rabs hi)) * bpow radix2 (- prec).
Proof.
  intros emin prec F big Hp He HA HB. exact (tuple_accuracy emin prec Hp He F HA big HB).
Qed.
Print Assumptions C81_accuracy.

(** Both precisions meet the hypotheses, and a function and its exact counterpart. *)
Example C81_accuracy_inputs : faithful (-149) 24 binary32 /\ bpow radix2 120 <= big32 /\
  faithful (-1074) 53 binary64 /\ bpow radix2 120 <= big64 /\
  In (LGM0_BIMOD, @get_bounded_m0pop_params xr (Num_xfl binary32 big32)) (machine_bounders binary32 big32) /\
  (exists ub, In (LGM0_BIMOD, get_bounded_m0pop_params, ub) bounding_pairs) /\
  let u := map (fun k => (k, -3)) (c_unames LGM0_BIMOD) in
  unbounded_for LGM0_BIMOD u /\ forall k v, has u k v -> Rabs v <= 100.
Proof.
  split; [exact binary32_faithful|]. split; [exact big32_large|].
  split; [exact binary64_faithful|]. split; [exact big64_large|].
  split. { unfold machine_bounders. cbn [map In app]. tauto. }
  split. { eexists. unfold bounding_pairs. cbn [map In app]. do 22 right. do 4 right. left. reflexivity. }
  intros u. split.
  - unfold unbounded_for, shaped, u. rewrite map_map. cbn [fst]. now rewrite map_id.
  - intros k v. unfold has, u. generalize (c_unames LGM0_BIMOD). intros l Hv.
    apply in_map_iff in Hv as (k' & E & _). injection E as _ <-. rewrite Rabs_left by lra. lra.
Qed.
