(** Whole populations of generated halos in machine arithmetic. *)

From Coq Require Import Reals ZArith String List Bool Arith Lra Lia.
From Flocq Require Import Core.
From Verif Require Import Model_Num Model_Kernels Model_Base Model_Utils Model_PopBase Model_PopData
  Model_PopParams Model_PopKernels Model_PopMC Model_Float Spec_Kernels Spec_Pop Spec_PopMC Spec_Float Spec_PopFloat
  RealAux Proofs_Kernels3 Proofs_Float Proofs_Float2 Proofs_Float3 Proofs_Float4 Proofs_Float5 Proofs_PopBase Proofs_PopAll
  Proofs_PopKernels Proofs_PopCov Proofs_PopMC Proofs_PopMC2 Proofs_PopFloat2 Proofs_PopFloat6 Proofs_PopFloat7
  Proofs_PopFloat8 Proofs_PopFloat9 Proofs_PopFloat11.
Import ListNotations.
Local Open Scope R_scope.
Local Open Scope string_scope.

(** ** Totality, whatever the numbers *)

Section TotalPop.
  Context {A : Type} {N : Num A}.

  Lemma any_pop_total Tn (G : rng A) g (p : rec A) tarr lgms ts k lgt0 : shaped (map fst pop_bounds) p ->
    shapely G -> List.length ts = List.length lgms ->
    exists P dm lm tr, mc_pop Tn G g p tarr lgms ts k lgt0 = (Ok (P, dm, lm), tr).
  Proof.
    intros L HG E. unfold mc_pop. cbv zeta. destruct (split_last k (List.length lgms) k) as [EL ER]. rewrite EL, ER.
    destruct (vmap3_total (fun m t k => mc_diffmah_single Tn G g p tarr m t k lgt0) lgms ts
      (map (Split k (List.length lgms + 1)) (seq 0 (List.length lgms)))) as (r & tr & Er).
    - exact E.
    - now rewrite map_length, seq_length.
    - intros m t k'. destruct (any_single_total Tn G g p m t k' lgt0 None L HG) as (e & l & f & tr & Es).
      eapply single_mah_total. exact Es.
    - do 4 eexists. eapply mbind_eval; [exact Er|]. eapply mbind_eval; [reflexivity|]. reflexivity.
  Qed.

  Lemma any_params_total Tn (G : rng A) g (p : rec A) lgms ts k lgt0 otp : shaped (map fst pop_bounds) p ->
    shapely G -> List.length ts = List.length lgms ->
    match otp with Some l => List.length l = List.length lgms | None => True end ->
    exists H tr, mc_diffmah_pop Tn G g p lgms ts k lgt0 otp = (Ok H, tr).
  Proof.
    intros L HG E Eo. unfold mc_diffmah_pop. cbv zeta.
    destruct otp as [tp|].
    - destruct (vmap4_total (fun m t k x => mc_diffmah_params_single Tn G g p m t k lgt0 (Some x)) lgms ts
        (split (Split k 2 1) (List.length lgms)) tp) as (r & tr & Er);
        [exact E|apply split_length|exact Eo| |].
      + intros m t k' x. destruct (any_single_total Tn G g p m t k' lgt0 (Some x) L HG) as (e & l & f & tr & Es). eauto.
      + do 2 eexists. eapply mbind_eval; [exact Er|]. eapply mbind_eval; [reflexivity|]. reflexivity.
    - destruct (vmap3_total (fun m t k => mc_diffmah_params_single Tn G g p m t k lgt0 None) lgms ts
        (split (Split k 2 1) (List.length lgms))) as (r & tr & Er);
        [exact E|apply split_length| |].
      + intros m t k'. destruct (any_single_total Tn G g p m t k' lgt0 None L HG) as (e & l & f & tr & Es). eauto.
      + do 2 eexists. eapply mbind_eval; [exact Er|]. eapply mbind_eval; [reflexivity|]. reflexivity.
  Qed.
End TotalPop.

(** ** Bounded parameter sets are near their bounds *)

Lemma pop_bounds_small : List.Forall (fun b => Rabs (fst (snd b)) <= 100 /\ Rabs (snd (snd b)) <= 100) pop_bounds.
Proof.
  unfold pop_bounds. cbn.
  repeat (apply List.Forall_cons; [cbn [fst snd]; split; apply Rabs_le; lra|]). apply List.Forall_nil.
Qed.

Lemma bounded_near emin prec F over slack p : (24 <= prec)%Z -> (emin <= - prec - 100)%Z -> faithful emin prec F ->
  0 <= slack <= bpow radix2 (-28) ->
  shaped (map fst pop_bounds) p -> in_machine_bounds F over slack pop_bounds p -> near_legal_pop F tol p.
Proof.
  intros Hprec Hemin HA Hs S B. split; [exact S|]. intros k lo hi I.
  destruct (B k lo hi I) as (r & Hr & Mr & L & U). exists r. refine (conj Hr (conj Mr _)).
  pose proof pop_bounds_small as Z. rewrite List.Forall_forall in Z. specialize (Z _ I). cbn [fst snd] in Z. destruct Z as [Z1 Z2].
  pose proof (Proofs_PopFloat2.rd_err emin prec ltac:(lia) Hemin F HA lo 100 Z1 ltac:(lra)) as E1.
  pose proof (Proofs_PopFloat2.rd_err emin prec ltac:(lia) Hemin F HA hi 100 Z2 ltac:(lra)) as E2.
  apply Rabs_le_inv in E1, E2.
  assert (Hu : bpow radix2 (- prec) <= bpow radix2 (-24)) by (apply bpow_le; lia).
  change (bpow radix2 (-24)) with (/ 16777216) in Hu. change (bpow radix2 (-28)) with (/ 268435456) in Hs.
  unfold tol. split; [lra|]. destruct U as [U|[_ U]]; lra.
Qed.

(** ** Histories *)

Section Histories.
  Variables emin prec : Z.
  Hypothesis Hprec : (20 <= prec)%Z.
  Hypothesis Hemin : (emin <= - prec - 100)%Z.
  Variable F : arith.
  Hypothesis HA : faithful emin prec F.
  Variable big : R.
  Hypothesis HB : bpow radix2 120 <= big.

  Local Notation X := (Num_xfl F big).
  Local Notation rd := (rnd F).
  Let HF := fa_ordered _ _ _ HA.

  Lemma legal_closed : forall q, machine_legal F q -> closed_legal q /\ 0 <= late_index q <= early_index q /\ 0 < t_peak q.
  Proof.
    intros q (A0 & A1 & A2 & A3 & A4 & _). unfold within in *.
    assert (0 <= rd (1 / 10)) by (apply (rd_nonneg F HF); lra).
    pose proof (rd_dlt emin prec Hprec Hemin F HA (5 / 100) ltac:(apply Rabs_le; lra)) as T. apply Rabs_le_inv in T.
    unfold dlt in T. unfold closed_legal, within.
    split; [|split; lra].
    split; [exact A0|]. split; [exact A1|]. split; [lra|]. split; [exact A3|]. lra.
  Qed.

  Lemma tabulated : forall q ss z, machine_legal F q -> List.Forall (fun s => 1 / 1000 <= s) ss -> 1 <= z <= 14 / 10 ->
    @mah_singlehalo xr X (inject q) (map Fin ss) (Fin z)
    = (map Fin (fst (fl_singlehalo F q ss z)), map Fin (snd (fl_singlehalo F q ss z))).
  Proof.
    intros q ss z L Hs Hz. destruct (legal_closed q L) as [C _]. unfold fl_singlehalo.
    rewrite !mah_singlehalo_map_gen. cbn [fst snd]. rewrite !map_map. rewrite List.Forall_forall in Hs.
    f_equal; apply map_ext_in; intros s I.
    - apply (finite_rate emin prec Hprec Hemin F HA big HB); [exact C|now apply Hs|lra|lra].
    - apply (finite_log_mah emin prec Hprec Hemin F HA big HB); [exact C|now apply Hs|lra].
  Qed.

  (** What a table of history is like: as long as the times; finite; up to [t0] the
      log-mass never decreases and the rate is never negative. *)
  Lemma tame : forall q ss t0, machine_legal F q -> List.Forall (fun s => 1 / 1000 <= s) ss ->
    1 <= lib_log10 F t0 <= 14 / 10 ->
    exists ds ms, @mah_singlehalo xr X (inject q) (map Fin ss) (Fin (lib_log10 F t0)) = (map Fin ds, map Fin ms) /\
      List.length ds = List.length ss /\ List.length ms = List.length ss /\
      (forall a b s s' m m', nth_error ss a = Some s -> nth_error ss b = Some s' -> s <= s' -> s' <= t0 ->
        nth_error ms a = Some m -> nth_error ms b = Some m' -> m <= m') /\
      (forall a s d, nth_error ss a = Some s -> s <= t0 -> nth_error ds a = Some d -> 0 <= d).
  Proof.
    intros q ss t0 L Hs Hz. exists (fst (fl_singlehalo F q ss (lib_log10 F t0))), (snd (fl_singlehalo F q ss (lib_log10 F t0))).
    split; [now apply tabulated|]. destruct (legal_closed q L) as (C & I & P).
    assert (M : machine_params F q) by apply L. destruct M as (_ & _ & Me & _ & _).
    unfold fl_singlehalo. rewrite mah_singlehalo_map_gen. cbn [fst snd]. rewrite !map_length.
    refine (conj eq_refl (conj eq_refl (conj _ _))).
    - intros a b s s' m m' Ha Hb H1 H2 Hm Hm'.
      rewrite (map_nth_error _ a ss Ha) in Hm. rewrite (map_nth_error _ b ss Hb) in Hm'. injection Hm as <-. injection Hm' as <-.
      rewrite List.Forall_forall in Hs. pose proof (Hs s (nth_error_In _ _ Ha)). pose proof (Hs s' (nth_error_In _ _ Hb)).
      apply (fl_log_mah_mono F HF); [exact Me|exact I|lra|lra|exact P|].
      apply (oa_log10_mono F HF); [apply Rmin_glb_lt; lra|]. apply Rle_trans with s'; [apply Rmin_l|exact H2].
    - intros a s d Ha H1 Hd. rewrite (map_nth_error _ a ss Ha) in Hd. injection Hd as <-.
      rewrite List.Forall_forall in Hs. pose proof (Hs s (nth_error_In _ _ Ha)).
      apply (fl_rate_nonneg F HF); [exact Me|exact I|lra|]. apply (oa_log10_mono F HF); lra.
  Qed.
End Histories.

(** ** Populations *)

Section Populations.
  Variables emin prec : Z.
  Hypothesis Hprec : (20 <= prec)%Z.
  Hypothesis Hemin : (emin <= - prec - 100)%Z.
  Variable F : arith.
  Hypothesis HA : faithful emin prec F.
  Variable big : R.
  Hypothesis HB : bpow radix2 120 <= big.

  Local Notation X := (Num_xfl F big).
  Local Notation rd := (rnd F).

  Lemma halo_drawn : forall Tn (G : rng xr) g (p : rec xr) lgm t k lgt0 otp tp,
    near_legal_pop F tol p -> shapely G -> (forall k' c, all_finite (deviation G k' c)) ->
    machine F lgm -> 6 <= lgm <= 134 / 10 -> machine F t -> 0 <= t <= 15 ->
    match otp with
    | Some x => x = Fin tp
    | None => @peak_time xr X Tn g p (Fin lgm) (Fin t) lgt0 (uniform G (Split k 2 0)) = Ok (Fin tp)
    end -> machine F tp -> rd (5 / 100) <= tp <= 20 ->
    exists e l f tr,
      @mc_diffmah_params_single xr X Tn G g p (Fin lgm) (Fin t) k lgt0 otp = (Ok (inject e, inject l, Fin f), tr) /\
      machine_legal F e /\ machine_legal F l /\ machine F f /\ 24 / 100 <= f <= 76 / 100.
  Proof.
    intros Tn G g p lgm t k lgt0 otp tp L S Z Ml Hl Mt Ht E Mp Hp.
    destruct (@any_single_total xr X Tn G g p (Fin lgm) (Fin t) k lgt0 otp (proj1 L) S) as (e & l & f & tr & H).
    destruct (generated emin prec Hprec Hemin F HA big HB Tn G g p lgm t k lgt0 otp tp e l f tr L Ml Hl Mt Ht E Mp Hp Z H)
      as [Q (r & -> & Mr & Br)].
    destruct (Q e (or_introl eq_refl)) as (qe & -> & Le). destruct (Q l (or_intror eq_refl)) as (ql & -> & Ll).
    exists qe, ql, r, tr. auto.
  Qed.

  Lemma peak_drawn : forall Tn g (p : rec xr) lgm t z r, near_legal_pop F tol p ->
    machine F t -> 0 <= t <= 15 -> 1 / 10 <= z <= 12 / 10 -> (g = Sat -> machine_cdf Tn /\ 6 / 10 <= t) ->
    exists tp, @peak_time xr X Tn g p (Fin lgm) (Fin t) (Fin z) (Fin r) = Ok (Fin tp) /\ machine F tp /\ rd (5 / 100) <= tp <= 20.
  Proof.
    intros Tn g p lgm t z r L Mt Ht Hz Hg. destruct g.
    - apply (peak_time_box emin prec Hprec Hemin F HA big HB Tn p (Fin lgm) (Fin t) z r);
        [apply near_provides; [apply incl_pop; in_list|exact L]|discriminate|discriminate|exact Hz].
    - destruct (Hg eq_refl) as [HT H6].
      apply (sat_peak_time emin prec Hprec Hemin F HA big HB); [exact HT| |discriminate|exact Mt|lra].
      apply near_provides; [apply incl_pop; in_list|exact L].
  Qed.

  Lemma drawn : forall Tn (G : rng xr) g (p : rec xr) lgm t k z,
    near_legal_pop F tol p -> shapely G -> finite_draws G ->
    machine F lgm -> 6 <= lgm <= 134 / 10 -> machine F t -> 0 <= t <= 15 -> 1 / 10 <= z <= 12 / 10 ->
    (g = Sat -> machine_cdf Tn /\ 6 / 10 <= t) ->
    exists e l f tr,
      @mc_diffmah_params_single xr X Tn G g p (Fin lgm) (Fin t) k (Fin z) None = (Ok (inject e, inject l, Fin f), tr) /\
      machine_legal F e /\ machine_legal F l /\ machine F f /\ 24 / 100 <= f <= 76 / 100.
  Proof.
    intros Tn G g p lgm t k z L S [U Z] Ml Hl Mt Ht Hz Hg.
    destruct (U (Split k 2 0)) as (r & Er).
    destruct (peak_drawn Tn g p lgm t z r L Mt Ht Hz Hg) as (tp & Et & Mp & Hp).
    rewrite <- Er in Et. exact (halo_drawn Tn G g p lgm t k (Fin z) None tp L S Z Ml Hl Mt Ht Et Mp Hp).
  Qed.

  Lemma given_population : forall Tn (G : rng xr) g (p : rec xr) lgms ts tps k lgt0,
    near_legal_pop F tol p -> shapely G -> finite_draws G ->
    machine_values F 6 (134 / 10) lgms -> machine_values F 0 15 ts -> machine_values F (rd (5 / 100)) 20 tps ->
    List.length ts = List.length lgms -> List.length tps = List.length lgms ->
    exists H tr, @mc_diffmah_pop xr X Tn G g p lgms ts k lgt0 (Some tps) = (Ok H, tr) /\
      let n := List.length lgms in
      legal_rows F n (hp_mah_params H) /\ legal_rows F n (hp_mah_params_early H) /\ legal_rows F n (hp_mah_params_late H) /\
      List.length (hp_frac_early_cens H) = n /\ machine_values F (24 / 100) (76 / 100) (hp_frac_early_cens H).
  Proof.
    intros Tn G g p lgms ts tps k lgt0 L S D Vl Vt Vp E1 E2.
    destruct (@any_params_total xr X Tn G g p lgms ts k lgt0 (Some tps) (proj1 L) S E1 E2) as (H & tr & EH).
    exists H, tr. split; [exact EH|]. cbv zeta.
    apply mc_diffmah_pop_inv in EH; [|exact S]. cbv zeta in EH.
    destruct EH as (_ & _ & N1 & N2 & N3 & N4 & _ & trs & _ & _ & Q). set (n := List.length lgms) in *.
    assert (W : forall i, (i < n)%nat -> exists e l f (b : bool), nth_error (hp_frac_early_cens H) i = Some (Fin f) /\
      row_is (hp_mah_params_early H) i (inject e) /\ row_is (hp_mah_params_late H) i (inject l) /\
      row_is (hp_mah_params H) i (if b then inject e else inject l) /\
      machine_legal F e /\ machine_legal F l /\ machine F f /\ 24 / 100 <= f <= 76 / 100).
    { intros i Hi.
      destruct (nth_error lgms i) as [lgm|] eqn:Hl; [|apply nth_error_None in Hl; unfold n in Hi; lia].
      destruct (nth_error ts i) as [t|] eqn:Ht; [|apply nth_error_None in Ht; lia].
      destruct (nth_error tps i) as [tp|] eqn:Hp; [|apply nth_error_None in Hp; lia].
      destruct (nth_error (uniforms G (Split k 2 0) n) i) as [u|] eqn:Hu;
        [|apply nth_error_None in Hu; rewrite (proj1 S) in Hu; lia].
      destruct (Q i lgm t u Hl Ht Hu) as (e & l & f & tri & T1 & T2 & T3 & T4 & T5 & T6 & T7).
      cbn [given_tp] in T2. rewrite Hp in T2.
      destruct (Vl lgm (nth_error_In _ _ Hl)) as (rl & -> & Ml & Bl).
      destruct (Vt t (nth_error_In _ _ Ht)) as (rt & -> & Mt & Bt).
      destruct (Vp tp (nth_error_In _ _ Hp)) as (rp & -> & Mp & Bp).
      destruct (halo_drawn Tn G g p rl rt (Split (Split k 2 1) n i) lgt0 (Some (Fin rp)) rp L S (proj2 D) Ml Bl Mt Bt eq_refl Mp Bp)
        as (qe & ql & r & tr' & E & Le & Ll & Mr & Br).
      rewrite E in T2. injection T2 as <- <- <- _.
      exists qe, ql, r, (nltb u (Fin r)).
      split; [exact T5|]. split; [exact T3|]. split; [exact T4|]. split; [exact T7|]. auto. }
    split; [|split; [|split; [|split]]].
    - split; [exact N1|]. intros i Hi. destruct (W i Hi) as (e & l & f & b & _ & _ & _ & R3 & Le & Ll & _).
      destruct b; eauto.
    - split; [exact N2|]. intros i Hi. destruct (W i Hi) as (e & l & f & b & _ & R1 & _ & _ & Le & _). eauto.
    - split; [exact N3|]. intros i Hi. destruct (W i Hi) as (e & l & f & b & _ & _ & R2 & _ & _ & Ll & _). eauto.
    - exact N4.
    - intros x Hx. apply In_nth_error in Hx. destruct Hx as (i & Hx).
      assert (Hi : (i < n)%nat) by (rewrite <- N4; apply nth_error_Some; congruence).
      destruct (W i Hi) as (e & l & f & b & F0 & _ & _ & _ & _ & _ & Mf & Bf).
      exists f. split; [congruence|]. auto.
  Qed.

  Lemma population : forall Tn (G : rng xr) g (p : rec xr) ss lgms ts k t0,
    near_legal_pop F tol p -> shapely G -> finite_draws G ->
    machine_values F 6 (134 / 10) lgms -> machine_values F 0 15 ts -> List.length ts = List.length lgms ->
    (forall s, In s ss -> 1 / 1000 <= s) -> 1 <= lib_log10 F t0 <= 12 / 10 ->
    (g = Sat -> machine_cdf Tn /\ machine_values F (6 / 10) 15 ts) ->
    exists P dm lm tr, @mc_pop xr X Tn G g p (map Fin ss) lgms ts k (Fin (lib_log10 F t0)) = (Ok (P, dm, lm), tr) /\
      let n := List.length lgms in
      legal_rows F n P /\ List.length dm = n /\ List.length lm = n /\
      forall i d m, nth_error dm i = Some d -> nth_error lm i = Some m -> tame_history ss t0 d m.
  Proof.
    intros Tn G g p ss lgms ts k t0 L S D Vl Vt E1 Hs Hz Hg.
    destruct (@any_pop_total xr X Tn G g p (map Fin ss) lgms ts k (Fin (lib_log10 F t0)) (proj1 L) S E1) as (P & dm & lm & tr & EH).
    exists P, dm, lm, tr. split; [exact EH|]. cbv zeta.
    apply mc_pop_inv in EH; [|exact S]. cbv zeta in EH.
    destruct EH as (_ & N1 & N2 & N3 & trs & _ & _ & Q). set (n := List.length lgms) in *.
    assert (W : forall i, (i < n)%nat -> exists q, row_is P i (inject q) /\ machine_legal F q /\
      nth_error dm i = Some (fst (@mah_singlehalo xr X (inject q) (map Fin ss) (Fin (lib_log10 F t0)))) /\
      nth_error lm i = Some (snd (@mah_singlehalo xr X (inject q) (map Fin ss) (Fin (lib_log10 F t0))))).
    { intros i Hi.
      destruct (nth_error lgms i) as [lgm|] eqn:Hl; [|apply nth_error_None in Hl; unfold n in Hi; lia].
      destruct (nth_error ts i) as [t|] eqn:Ht; [|apply nth_error_None in Ht; lia].
      destruct (nth_error (uniforms G (Split k (n + 1) n) n) i) as [u|] eqn:Hu;
        [|apply nth_error_None in Hu; rewrite (proj1 S) in Hu; lia].
      destruct (Q i lgm t u Hl Ht Hu) as (e & l & f & tri & _ & T2 & T3).
      destruct (Vl lgm (nth_error_In _ _ Hl)) as (rl & -> & Ml & Bl).
      destruct (Vt t (nth_error_In _ _ Ht)) as (rt & -> & Mt & Bt).
      assert (Hg' : g = Sat -> machine_cdf Tn /\ 6 / 10 <= rt).
      { intros Eg. destruct (Hg Eg) as [HT V6]. split; [exact HT|].
        destruct (V6 _ (nth_error_In _ _ Ht)) as (r6 & E6 & _ & B6). injection E6 as ->. lra. }
      destruct (drawn Tn G g p rl rt (Split k (n + 1) i) (lib_log10 F t0) L S D Ml Bl Mt Bt ltac:(lra) Hg')
        as (qe & ql & r & tr' & E & Le & Ll & Mr & Br).
      rewrite E in T2. injection T2 as <- <- <- _.
      cbv zeta in T3. destruct T3 as (R1 & R2 & R3).
      destruct (@nltb xr X u (Fin r)); [exists qe | exists ql]; auto. }
    split; [|split; [exact N2|split; [exact N3|]]].
    - split; [exact N1|]. intros i Hi. destruct (W i Hi) as (q & R & Lq & _). eauto.
    - intros i d m Hd Hm. assert (Hi : (i < n)%nat) by (rewrite <- N2; apply nth_error_Some; congruence).
      destruct (W i Hi) as (q & _ & Lq & Ed & Em). rewrite Hd in Ed. rewrite Hm in Em.
      destruct (tame emin prec Hprec Hemin F HA big HB q ss t0 Lq) as (ds & ms & E & T);
        [now apply List.Forall_forall|lra|].
      rewrite E in Ed, Em. cbn [fst snd] in Ed, Em. injection Ed as ->. injection Em as ->. exists ds, ms. refine (conj eq_refl (conj eq_refl T)).
  Qed.
End Populations.
