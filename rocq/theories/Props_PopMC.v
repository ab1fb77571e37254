(** C44-C47, C57, C63-C65: the Monte Carlo generators and the population
    losses.

    [TN] is the cumulative truncated normal distribution on the reals.  The
    generator [G] is arbitrary: every theorem holds for every sequence of random
    numbers.  [g] is [Cen] for mc_bimod_cens.py and [Sat] for mc_bimod_sats.py. *)

From Coq Require Import Reals String List Bool Arith Lia Lra.
From Verif Require Import Model_Num RealAux Model_Base Model_Kernels Model_Utils Model_PopBase Model_PopData
  Model_PopParams Model_PopKernels Model_PopMC Proofs_Kernels Proofs_Kernels2 Proofs_XKernels Spec_Kernels Spec_Utils Spec_Pop
  Spec_PopMC Spec_TruncNorm Proofs_PopBase Proofs_PopInterp Proofs_PopAll Proofs_PopTpeak Proofs_PopKernels Proofs_PopProps
  Proofs_PopMC Proofs_PopMC2 Proofs_PopLoss Proofs_PopMC3 Proofs_PopMass.
Import ListNotations.
Local Open Scope R_scope.
Local Open Scope list_scope.

(** A generator, to show that the hypotheses can be met. *)
Definition some_rng : rng R := mkRng R (fun _ => 1/2) (fun _ n => repeat (1/2) n) (fun _ c => repeat (1/10) (fst c)).
Example some_rng_shapely : shapely some_rng.
Proof. split; intros; apply repeat_length. Qed.

(** ** C44 *)

(** Both realisations of a halo have the same peak time, in any arithmetic. *)
Theorem C44_shared_t_peak : forall A (N : Num A) F (G : rng A) g p lgm t k lgt0 otp e l f tr,
  mc_diffmah_params_single F G g p lgm t k lgt0 otp = (Ok (e, l, f), tr) -> t_peak e = t_peak l.
Proof. intros A N. exact single_shared_tp. Qed.
Print Assumptions C44_shared_t_peak.

(** A peak time that is given is returned unchanged. *)
Theorem C44_given_t_peak : forall (G : rng R) g (p : rec R) lgm t k lgt0 tp e l f tr, 5/100 < tp < 20 ->
  mc_diffmah_params_single TN G g p lgm t k lgt0 (Some tp) = (Ok (e, l, f), tr) ->
  t_peak e = tp /\ t_peak l = tp.
Proof.
  intros G g p lgm t k lgt0 tp e l f tr B H. apply single_tp_R in H. destruct H as (_ & _ & tp' & -> & H). auto.
Qed.
Print Assumptions C44_given_t_peak.

(** A peak time that is drawn is the one its uniform draw stands for, and lies
    before today (centrals) or before the observation (satellites). *)
Theorem C44_drawn_t_peak : forall (G : rng R) g (p : rec R) lgm t k lgt0 e l f tr, legal_pop p ->
  match g with Cen => 1 < pow10 lgt0 < 20 | Sat => 1/2 <= t <= 20 end ->
  mc_diffmah_params_single TN G g p lgm t k lgt0 None = (Ok (e, l, f), tr) ->
  exists u, peak_time TN g p lgm t lgt0 u = Ok (t_peak e) /\ peak_time TN g p lgm t lgt0 u = Ok (t_peak l) /\
    t_peak e <= match g with Cen => pow10 lgt0 | Sat => t end.
Proof.
  intros G g p lgm t k lgt0 e l f tr L B H. apply single_tp_R in H. destruct H as (_ & _ & tp & E & H).
  exists (uniform G (Split k 2 0)).
  destruct (peak_time_range g p lgm t lgt0 (uniform G (Split k 2 0)) L) as (tp' & E' & B'); [intros ->; lra|].
  rewrite E in E'. apply Ok_inj in E'. subst tp'.
  destruct H as [H1 H2]; [destruct g; lra|]. rewrite H1, H2, E. refine (conj eq_refl (conj eq_refl _)). destruct g; lra.
Qed.
Print Assumptions C44_drawn_t_peak.

Example C44_example : exists (d : rec R) e l f tr, DEFAULT_DIFFMAHPOP_PARAMS = Ok d /\
  mc_diffmah_params_single TN some_rng Cen d 12 10 (Seed 0) 1 (Some 5) = (Ok (e, l, f), tr) /\ t_peak e = 5 /\ t_peak l = 5.
Proof.
  destruct default_legal as (d & E & L).
  destruct (single_total some_rng Cen d 12 10 (Seed 0) 1 (Some 5) L some_rng_shapely) as (e & l & f & tr & H).
  exists d, e, l, f, tr. refine (conj E (conj H _)). eapply C44_given_t_peak; [|exact H]. lra.
Qed.
Example C44_example_drawn : exists (d : rec R) e l f tr, DEFAULT_DIFFMAHPOP_PARAMS = Ok d /\ legal_pop d /\
  mc_diffmah_params_single TN some_rng Sat d 12 10 (Seed 0) 1 None = (Ok (e, l, f), tr).
Proof.
  destruct default_legal as (d & E & L).
  destruct (single_total some_rng Sat d 12 10 (Seed 0) 1 None L some_rng_shapely) as (e & l & f & tr & H). eauto 10.
Qed.

(** ** C45 *)

(** False: whenever the peak time is drawn, its key is used again for the
    scatter of the early realisation. *)
Theorem C45_keys_refuted : exists p : rec R, legal_pop p /\
  forall (G : rng R) g lgm t k lgt0, shapely G ->
  exists r tr, mc_diffmah_params_single TN G g p lgm t k lgt0 None = (Ok r, tr) /\ ~ keys_not_shared tr.
Proof.
  destruct default_legal as (d & _ & L). exists d. split; [exact L|]. intros G g lgm t k lgt0 HG.
  destruct (single_total G g d lgm t k lgt0 None L HG) as (e & l & f & tr & H).
  exists (e, l, f), tr. split; [exact H|]. apply single_inv in H. destruct H as (tp & me & ml & cov & _ & _ & _ & _ & _ & _ & _ & _ & ->).
  intros K. apply (K (Uniform (Split k 2 0)) (Normal (Split k 2 0))); cbn; auto. discriminate.
Qed.
Print Assumptions C45_keys_refuted.

(** When the peak times are given, a whole population is drawn without using
    any stream twice. *)
Theorem C45_given_t_peak_fresh : forall A (N : Num A) F (G : rng A) g p lgms ts k lgt0 tp r tr, shapely G ->
  mc_diffmah_pop F G g p lgms ts k lgt0 (Some tp) = (Ok r, tr) -> NoDup (map stream tr).
Proof. intros A N. exact mc_diffmah_pop_fresh. Qed.
Print Assumptions C45_given_t_peak_fresh.

(** In every case the halos of a population are drawn from separate streams, and
    the choice between early and late from yet another one. *)
Theorem C45_halos_independent : forall A (N : Num A) F (G : rng A) g p tarr lgms ts k lgt0 r tr, shapely G ->
  mc_pop F G g p tarr lgms ts k lgt0 = (Ok r, tr) ->
  exists trs sel, length trs = length lgms /\ tr = concat trs ++ [sel] /\
    (forall i j a b, i <> j -> nth_error trs i = Some a -> nth_error trs j = Some b -> independent a b) /\
    (forall a, In a trs -> independent a [sel]) /\
    (forall i lgm t a, nth_error lgms i = Some lgm -> nth_error ts i = Some t -> nth_error trs i = Some a ->
      snd (mc_diffmah_params_single F G g p lgm t (Split k (length lgms + 1) i) lgt0 None) = a).
Proof. intros A N. exact mc_pop_keys. Qed.
Print Assumptions C45_halos_independent.

Theorem C45_halos_independent_params : forall A (N : Num A) F (G : rng A) g p lgms ts k lgt0 otp r tr, shapely G ->
  mc_diffmah_pop F G g p lgms ts k lgt0 otp = (Ok r, tr) ->
  exists trs sel, length trs = length lgms /\ tr = concat trs ++ [sel] /\
    (forall i j a b, i <> j -> nth_error trs i = Some a -> nth_error trs j = Some b -> independent a b) /\
    (forall a, In a trs -> independent a [sel]) /\
    (otp <> None -> forall a, In a trs -> exists k', a = [Normal (Split k' 2 0); Normal (Split k' 2 1)]).
Proof. intros A N. exact mc_diffmah_pop_keys. Qed.
Print Assumptions C45_halos_independent_params.

Example C45_example : exists (d : rec R) r tr, DEFAULT_DIFFMAHPOP_PARAMS = Ok d /\
  mc_diffmah_pop TN some_rng Sat d [12; 13] [9; 10] (Seed 0) 1 (Some [3; 4]) = (Ok r, tr) /\ NoDup (map stream tr).
Proof.
  destruct default_legal as (d & E & L).
  destruct (mc_diffmah_pop_total some_rng Sat d [12; 13] [9; 10] (Seed 0) 1 (Some [3; 4]) L some_rng_shapely eq_refl eq_refl) as (r & tr & H).
  exists d, r, tr. refine (conj E (conj H _)). exact (C45_given_t_peak_fresh _ _ _ _ _ _ _ _ _ _ _ _ _ some_rng_shapely H).
Qed.

(** ** C46 *)

(** Halo [i] of mc_cenpop / mc_satpop is one of its two realisations, taken
    whole: parameters, accretion rates and masses.  The early one is taken
    exactly when the halo's uniform draw is below its early fraction. *)
Theorem C46_whole_halos : forall A (N : Num A) F (G : rng A) g p tarr lgms ts k lgt0 P dm lm tr, shapely G ->
  mc_pop F G g p tarr lgms ts k lgt0 = (Ok (P, dm, lm), tr) ->
  let n := length lgms in
  let us := uniforms G (Split k (n + 1) n) n in
  length ts = n /\ n_rows P n /\ length dm = n /\ length lm = n /\
  forall i lgm t u, nth_error lgms i = Some lgm -> nth_error ts i = Some t -> nth_error us i = Some u ->
    exists e l f tri,
      mc_diffmah_params_single F G g p lgm t (Split k (n + 1) i) lgt0 None = (Ok (e, l, f), tri) /\
      let h := if nltb u f then e else l in
      row_is P i h /\
      nth_error dm i = Some (fst (mah_singlehalo h tarr lgt0)) /\
      nth_error lm i = Some (snd (mah_singlehalo h tarr lgt0)).
Proof.
  intros A N F G g p tarr lgms ts k lgt0 P dm lm tr HG H. apply mc_pop_inv in H; [|exact HG]. cbv zeta in *.
  destruct H as (H1 & H2 & H3 & H4 & trs & _ & _ & H5). refine (conj H1 (conj H2 (conj H3 (conj H4 _)))).
  intros i lgm t u E1 E2 E3. destruct (H5 i lgm t u E1 E2 E3) as (e & l & f & tri & _ & H). eauto.
Qed.
Print Assumptions C46_whole_halos.

(** The same for mc_diffmah_cenpop / mc_diffmah_satpop, which also return both
    realisations, the fractions and the choice. *)
Theorem C46_whole_halos_params : forall A (N : Num A) F (G : rng A) g p lgms ts k lgt0 otp H tr, shapely G ->
  mc_diffmah_pop F G g p lgms ts k lgt0 otp = (Ok H, tr) ->
  let n := length lgms in
  let us := uniforms G (Split k 2 0) n in
  length ts = n /\ match otp with Some l => length l = n | None => True end /\
  n_rows (hp_mah_params H) n /\ n_rows (hp_mah_params_early H) n /\ n_rows (hp_mah_params_late H) n /\
  length (hp_frac_early_cens H) = n /\ length (hp_mc_early H) = n /\
  forall i lgm t u, nth_error lgms i = Some lgm -> nth_error ts i = Some t -> nth_error us i = Some u ->
    exists e l f tri,
      mc_diffmah_params_single F G g p lgm t (Split (Split k 2 1) n i) lgt0
        (match otp with Some l => nth_error l i | None => None end) = (Ok (e, l, f), tri) /\
      row_is (hp_mah_params_early H) i e /\ row_is (hp_mah_params_late H) i l /\
      nth_error (hp_frac_early_cens H) i = Some f /\ nth_error (hp_mc_early H) i = Some (nltb u f) /\
      row_is (hp_mah_params H) i (if nltb u f then e else l).
Proof.
  intros A N F G g p lgms ts k lgt0 otp H tr HG E. apply mc_diffmah_pop_inv in E; [|exact HG]. cbv zeta in *.
  destruct E as (H1 & H2 & H3 & H4 & H5 & H6 & H7 & trs & _ & _ & H8).
  refine (conj H1 (conj H2 (conj H3 (conj H4 (conj H5 (conj H6 (conj H7 _))))))).
  intros i lgm t u E1 E2 E3. destruct (H8 i lgm t u E1 E2 E3) as (e & l & f & tri & _ & Q). exists e, l, f, tri. exact Q.
Qed.
Print Assumptions C46_whole_halos_params.

(** The generators never fail on legal parameters and arrays of equal length. *)
Theorem C46_total : forall (G : rng R) g (p : rec R) tarr lgms ts k lgt0, legal_pop p -> shapely G -> length ts = length lgms ->
  (exists P dm lm tr, mc_pop TN G g p tarr lgms ts k lgt0 = (Ok (P, dm, lm), tr)) /\
  forall otp, match otp with Some l => length l = length lgms | None => True end ->
    exists H tr, mc_diffmah_pop TN G g p lgms ts k lgt0 otp = (Ok H, tr).
Proof.
  intros G g p tarr lgms ts k lgt0 L HG E. split; [now apply mc_pop_total|]. intros otp Eo. now apply mc_diffmah_pop_total.
Qed.
Print Assumptions C46_total.

(** Arrays of different lengths are rejected. *)
Theorem C46_lengths : forall A (N : Num A) F (G : rng A) g p tarr lgms ts k lgt0, length ts <> length lgms ->
  fst (mc_pop F G g p tarr lgms ts k lgt0) = Err ValueError.
Proof. intros A N. exact mc_pop_lengths. Qed.
Print Assumptions C46_lengths.

Example C46_example : exists (d : rec R) P dm lm tr, DEFAULT_DIFFMAHPOP_PARAMS = Ok d /\
  mc_pop TN some_rng Cen d [1; 2; 3] [12; 13] [9; 10] (Seed 0) 1 = (Ok (P, dm, lm), tr).
Proof.
  destruct default_legal as (d & E & L).
  destruct (mc_pop_total some_rng Cen d [1; 2; 3] [12; 13] [9; 10] (Seed 0) 1 L some_rng_shapely eq_refl) as (P & dm & lm & tr & H). eauto 10.
Qed.

(** ** C47 *)

(** The predicted moments are the weighted mean and standard deviation of a
    sample of 200 halos, with weights that form a probability distribution. *)
Theorem C47_weighted_moments : forall (G : rng R) g (p : rec R) tarr lgm t k lgt0 mean std fp tr, legal_pop p ->
  predict_mah_moments_singlebin TN G g p tarr lgm t k lgt0 = (Ok (mean, std, fp), tr) ->
  length mean = length tarr /\ length std = length tarr /\ length fp = length tarr /\
  exists r, length r = 200%nat /\
    (forall i, (i < 200)%nat -> exists h tri, nth_error r i = Some h /\
       mc_diffmah_single TN G g p tarr lgm t (Split k 200 i) lgt0 = (Ok h, tri)) /\
    forall j, (j < length tarr)%nat ->
      probability_weights (sample_at r j) /\
      nth j mean 0 = weighted_mean (sample_at r j) /\
      nth j std 0 = sqrt (weighted_variance (sample_at r j)) /\ 0 <= nth j std 0 /\
      exists lo hi, In lo (map snd (sample_at r j)) /\ In hi (map snd (sample_at r j)) /\
        (forall x, In x (map snd (sample_at r j)) -> lo <= x <= hi) /\ lo <= nth j mean 0 <= hi.
Proof.
  intros G g p tarr lgm t k lgt0 mean std fp tr L H. apply predict_inv in H; [|exact L].
  destruct H as (_ & r & H1 & H2 & H3 & H4 & H5 & H6).
  refine (conj H3 (conj H4 (conj _ _))); [rewrite H5; apply repeat_length|].
  exists r. refine (conj H1 (conj H2 _)). intros j Hj. destruct (H6 j Hj) as (W & M & S).
  refine (conj W (conj M (conj S (conj _ _)))); [rewrite S; apply sqrt_pos|].
  destruct (weighted_mean_bounds _ W) as (lo & hi & B1 & B2 & B3 & B4). exists lo, hi. rewrite M. auto.
Qed.
Print Assumptions C47_weighted_moments.

Theorem C47_total : forall (G : rng R) g (p : rec R) tarr lgm t k lgt0, legal_pop p -> shapely G ->
  exists mean std fp tr, predict_mah_moments_singlebin TN G g p tarr lgm t k lgt0 = (Ok (mean, std, fp), tr).
Proof. exact predict_total. Qed.
Print Assumptions C47_total.

(** The predicted peaked fraction carries no information: it is 1/2 whatever
    the parameters, the halo and the time. *)
Theorem C47_frac_peaked_constant : forall (G : rng R) g (p : rec R) tarr lgm t k lgt0 mean std fp tr, legal_pop p ->
  predict_mah_moments_singlebin TN G g p tarr lgm t k lgt0 = (Ok (mean, std, fp), tr) -> fp = repeat (1/2) (length tarr).
Proof.
  intros G g p tarr lgm t k lgt0 mean std fp tr L H. apply predict_inv in H; [|exact L].
  destruct H as (_ & r & H1 & H2 & H3 & H4 & H5 & H6). exact H5.
Qed.
Print Assumptions C47_frac_peaked_constant.

Example C47_example : exists (d : rec R) mean std fp tr, legal_pop d /\
  predict_mah_moments_singlebin TN some_rng Sat d [1; 5; 13] 13 10 (Seed 3) 1 = (Ok (mean, std, fp), tr).
Proof.
  destruct default_legal as (d & E & L).
  destruct (predict_total some_rng Sat d [1; 5; 13] 13 10 (Seed 3) 1 L some_rng_shapely) as (m & s & f & tr & H). eauto 10.
Qed.

(** ** C57 *)

(** One bin. *)
Theorem C57_singlebin : forall (G : rng R) g (p : rec R) (b : Bin R) k lgt0 v tr, legal_pop p -> bin_tarr b <> [] ->
  loss_mah_moments_singlebin TN G g p b k lgt0 = (Ok v, tr) ->
  0 <= v /\
  (v = 0 <-> exists fp tr', predict_mah_moments_singlebin TN G g p (bin_tarr b) (bin_lgm_obs b) (bin_t_obs b) k lgt0 =
     (Ok (bin_mean b, bin_std b, fp), tr')).
Proof.
  intros G g p b k lgt0 v tr L Hb H. apply singlebin_loss in H; [|exact L|exact Hb]. destruct H as (H1 & H2 & _). exact (conj H1 H2).
Qed.
Print Assumptions C57_singlebin.

(** Several bins: the loss is the mean of the losses of the bins, each computed
    with its own key. *)
Theorem C57_multibin : forall (G : rng R) g (p : rec R) (bins : list (Bin R)) k lgt0 v tr, legal_pop p -> bins <> [] ->
  (forall b, In b bins -> bin_tarr b <> []) ->
  loss_mah_moments_multibin TN G g p bins k lgt0 = (Ok v, tr) ->
  0 <= v /\
  (v = 0 <-> forall i b, nth_error bins i = Some b -> exists fp tr',
     predict_mah_moments_singlebin TN G g p (bin_tarr b) (bin_lgm_obs b) (bin_t_obs b) (Split k (length bins) i) lgt0 =
     (Ok (bin_mean b, bin_std b, fp), tr')) /\
  exists vs, length vs = length bins /\ v = total vs / INR (length bins) /\
    forall i b, nth_error bins i = Some b -> exists x tri, nth_error vs i = Some x /\
      loss_mah_moments_singlebin TN G g p b (Split k (length bins) i) lgt0 = (Ok x, tri).
Proof.
  intros G g p bins k lgt0 v tr L Hb Ht H. apply multibin_loss in H; [|assumption..]. destruct H as (H1 & H2 & _ & H3).
  exact (conj H1 (conj H2 H3)).
Qed.
Print Assumptions C57_multibin.

(** Centrals and satellites together, with the fields that are varied replaced
    in the defaults. *)
Theorem C57_censat : forall (G : rng R) (varied d p : rec R) (bc bs : list (Bin R)) k lgt0 v tr,
  DEFAULT_DIFFMAHPOP_PARAMS = Ok d -> replace d varied = Ok p -> legal_pop p ->
  bc <> [] -> bs <> [] -> (forall b, In b (bc ++ bs) -> bin_tarr b <> []) ->
  loss_mah_moments_multibin_censat TN G varied bc bs k lgt0 = (Ok v, tr) ->
  0 <= v /\
  (exists vc tc vs ts, loss_mah_moments_multibin TN G Cen p bc (Split k 2 0) lgt0 = (Ok vc, tc) /\
     loss_mah_moments_multibin TN G Sat p bs (Split k 2 1) lgt0 = (Ok vs, ts) /\ v = vc + vs /\
     independent tc ts /\
     (v = 0 <-> vc = 0 /\ vs = 0)) /\
  (v = 0 <->
    (forall i b, nth_error bc i = Some b -> exists fp tr',
      predict_mah_moments_singlebin TN G Cen p (bin_tarr b) (bin_lgm_obs b) (bin_t_obs b) (Split (Split k 2 0) (length bc) i) lgt0 =
      (Ok (bin_mean b, bin_std b, fp), tr')) /\
    (forall i b, nth_error bs i = Some b -> exists fp tr',
      predict_mah_moments_singlebin TN G Sat p (bin_tarr b) (bin_lgm_obs b) (bin_t_obs b) (Split (Split k 2 1) (length bs) i) lgt0 =
      (Ok (bin_mean b, bin_std b, fp), tr'))).
Proof.
  intros G varied d p bc bs k lgt0 v tr Ed Ep L Hc Hs Hb H. apply censat_loss in H.
  destruct H as (d' & p' & vc & tc & vs & ts & Ed' & Ep' & Hvc & Hvs & -> & _).
  rewrite Ed in Ed'. apply Ok_inj in Ed'. subst d'. rewrite Ep in Ep'. apply Ok_inj in Ep'. subst p'.
  pose proof (multibin_loss _ _ _ _ _ _ _ _ L Hc (fun b Hin => Hb b (in_or_app _ _ _ (or_introl Hin))) Hvc) as (C1 & C2 & C3 & _).
  pose proof (multibin_loss _ _ _ _ _ _ _ _ L Hs (fun b Hin => Hb b (in_or_app _ _ _ (or_intror Hin))) Hvs) as (S1 & S2 & S3 & _).
  assert (Z : vc + vs = 0 <-> vc = 0 /\ vs = 0) by (split; [intros; split; lra|intros [-> ->]; lra]).
  refine (conj _ (conj _ _)); [lra| |].
  - exists vc, tc, vs, ts. refine (conj Hvc (conj Hvs (conj eq_refl (conj _ Z)))).
    apply below_siblings with k 2%nat 0%nat 1%nat; [discriminate|exact C3|exact S3].
  - rewrite Z, C2, S2. reflexivity.
Qed.
Print Assumptions C57_censat.

(** The losses on unbounded parameters are the losses above at the parameters
    they stand for. *)
Theorem C57_u_params : forall (G : rng R) (u d u' p : rec R) k lgt0,
  DEFAULT_DIFFMAHPOP_U_PARAMS = Ok d -> replace d u = Ok u' -> get_diffmahpop_params_from_u_params u' = Ok p ->
  (forall bins, loss_mah_moments_multibin_u_params TN G u bins k lgt0 = loss_mah_moments_multibin TN G Cen p bins k lgt0) /\
  (forall bc bs, loss_mah_moments_multibin_censat_u_params TN G u bc bs k lgt0 = loss_mah_moments_multibin_censat TN G p bc bs k lgt0).
Proof.
  intros G u d u' p k lgt0 E1 E2 E3. split; intros; [eapply u_params_loss|eapply censat_u_params_loss]; eassumption.
Qed.
Print Assumptions C57_u_params.

(** The losses are defined whenever targets and times have equal lengths. *)
Theorem C57_total : forall (G : rng R) (p : rec R) (bins : list (Bin R)) k lgt0, legal_pop p -> shapely G ->
  (forall b, In b bins -> length (bin_mean b) = length (bin_tarr b) /\ length (bin_std b) = length (bin_tarr b)) ->
  forall g, exists v tr, loss_mah_moments_multibin TN G g p bins k lgt0 = (Ok v, tr).
Proof. intros G p bins k lgt0 L HG Hb g. now apply multibin_total. Qed.
Print Assumptions C57_total.

Example C57_example : exists (d : rec R) v tr, DEFAULT_DIFFMAHPOP_PARAMS = Ok d /\ legal_pop d /\
  loss_mah_moments_multibin TN some_rng Cen d [mkBin [1; 5] 12 10 [11; 12] [1/10; 1/5] [1/2; 1/2]] (Seed 0) 1 = (Ok v, tr).
Proof.
  destruct default_legal as (d & E & L).
  destruct (multibin_total some_rng Cen d [mkBin [1; 5] 12 10 [11; 12] [1/10; 1/5] [1/2; 1/2]] (Seed 0) 1 L some_rng_shapely) as (v & tr & H).
  - intros b [<-|[]]. split; reflexivity.
  - exists d, v, tr. exact (conj E (conj L H)).
Qed.

(** ** C63 *)

(** Whatever the draws, every realisation is a legal halo, and its mass never
    decreases if today is later than 8.96 Gyr. *)
Theorem C63_legal_halos : forall (G : rng R) g (p : rec R) lgm t k lgt0 otp e l f tr,
  mc_diffmah_params_single TN G g p lgm t k lgt0 otp = (Ok (e, l, f), tr) ->
  legal e /\ legal l /\
  (896/100 <= pow10 lgt0 -> forall t1 t2, 0 < t1 -> t1 <= t2 ->
    logmh_at_t_obs e t1 lgt0 <= logmh_at_t_obs e t2 lgt0 /\ logmh_at_t_obs l t1 lgt0 <= logmh_at_t_obs l t2 lgt0).
Proof.
  intros G g p lgm t k lgt0 otp e l f tr H. apply single_tp_R in H. destruct H as (Le & Ll & _).
  refine (conj Le (conj Ll _)). intros H0 t1 t2 H1 H2. pose proof pow10_22_63_bound.
  split; apply logmh_monotone; auto; [destruct Le as (_ & _ & _ & _ & B)|destruct Ll as (_ & _ & _ & _ & B)]; nra.
Qed.
Print Assumptions C63_legal_halos.

(** The same for a whole population. *)
Theorem C63_legal_population : forall (G : rng R) g (p : rec R) tarr lgms ts k lgt0 P dm lm tr i h, shapely G ->
  mc_pop TN G g p tarr lgms ts k lgt0 = (Ok (P, dm, lm), tr) -> row_is P i h -> legal h.
Proof.
  intros G g p tarr lgms ts k lgt0 P dm lm tr i h HG H Hrow. pose proof HG as [HU _].
  apply mc_pop_inv in H; [|exact HG]. cbv zeta in H. destruct H as (L1 & N & _ & _ & trs & _ & _ & H).
  assert (B : (i < length lgms)%nat).
  { destruct Hrow as (Hr & _). destruct N as (N & _). rewrite <- N. apply nth_error_Some. congruence. }
  destruct (nth_error lgms i) as [lgm|] eqn:E1; [|apply nth_error_None in E1; lia].
  destruct (nth_error ts i) as [t|] eqn:E2; [|apply nth_error_None in E2; lia].
  destruct (nth_error (uniforms G (Split k (length lgms + 1) (length lgms)) (length lgms)) i) as [u|] eqn:E3;
    [|apply nth_error_None in E3; rewrite HU in E3; lia].
  destruct (H i lgm t u E1 E2 E3) as (e & l & f & tri & _ & E & R & _).
  apply C63_legal_halos in E. destruct E as (Le & Ll & _).
  assert (Q : h = if nltb u f then e else l).
  { destruct Hrow as (A1 & A2 & A3 & A4 & A5). destruct R as (B1 & B2 & B3 & B4 & B5).
    destruct h as [h1 h2 h3 h4 h5]. destruct (if nltb u f then e else l) as [g1 g2 g3 g4 g5]. cbn in *. congruence. }
  rewrite Q. now destruct (nltb u f).
Qed.
Print Assumptions C63_legal_population.

Example C63_example : exists (d : rec R) e l f tr, DEFAULT_DIFFMAHPOP_PARAMS = Ok d /\
  mc_diffmah_params_single TN some_rng Cen d 12 10 (Seed 0) (log10 (138/10)) None = (Ok (e, l, f), tr).
Proof.
  destruct default_legal as (d & E & L).
  destruct (single_total some_rng Cen d 12 10 (Seed 0) (log10 (138/10)) None L some_rng_shapely) as (e & l & f & tr & H). eauto 10.
Qed.

(** ** C64 *)

(** A realisation is the mean of its population, from the published kernels at
    the halo's peak time, displaced in the unbounded parameters by the deviation
    drawn for the covariance matrix of the model.  The peak time itself is not
    displaced.  [dev] is the draw of key 0 for early and key 1 for late. *)
Theorem C64_mean_plus_deviation : forall (G : rng R) g (p : rec R) lgm t k lgt0 otp e l f tr,
  mc_diffmah_params_single TN G g p lgm t k lgt0 otp = (Ok (e, l, f), tr) ->
  exists tp me ml cov,
    is_mean_early g p lgm t tp me /\ is_mean_late g p lgm t tp ml /\ get_diffmahpop_cov p lgm = Ok cov /\
    frac_early_cens_kern p lgm t = Ok f /\
    forall m h i, (m, h, i) = (me, e, 0%nat) \/ (m, h, i) = (ml, l, 1%nat) ->
      exists d1 d2 d3 d4 rest, deviation G (Split k 2 i) cov = d1 :: d2 :: d3 :: d4 :: rest /\
        let u := get_unbounded_mah_params m in
        let v := get_unbounded_mah_params h in
        u_logm0 v = u_logm0 u + d1 /\ u_logtc v = u_logtc u + d2 /\
        u_early_index v = u_early_index u + d3 /\ u_late_index v = u_late_index u + d4 /\ u_t_peak v = u_t_peak u.
Proof.
  intros G g p lgm t k lgt0 otp e l f tr H. apply single_inv in H.
  destruct H as (tp & me & ml & cov & _ & Me & Ml & Ec & _ & Se & Sl & Ef & _).
  exists tp, me, ml, cov. refine (conj Me (conj Ml (conj Ec (conj Ef _)))).
  intros m h i [E|E]; injection E as -> -> ->; [apply scattered_R in Se; rename Se into S|apply scattered_R in Sl; rename Sl into S];
    destruct S as (d1 & d2 & d3 & d4 & rest & D & _ & S); exists d1, d2, d3, d4, rest; exact (conj D S).
Qed.
Print Assumptions C64_mean_plus_deviation.

(** Without scatter the realisations are the means, for ordinary halos. *)
Theorem C64_no_scatter : forall (G : rng R) g (p : rec R) lgm t k lgt0 tp e l f tr, legal_pop p ->
  0 <= t <= 15 -> 10 <= lgm <= 134/10 -> 5/100 < tp < 20 -> (forall k' c x, In x (deviation G k' c) -> x = 0) ->
  mc_diffmah_params_single TN G g p lgm t k lgt0 (Some tp) = (Ok (e, l, f), tr) ->
  is_mean_early g p lgm t tp e /\ is_mean_late g p lgm t tp l.
Proof.
  intros G g p lgm t k lgt0 tp e l f tr L Ht Hl B Z H. apply single_inv in H.
  destruct H as (tp' & me & ml & cov & -> & Me & Ml & _ & _ & Se & Sl & _).
  assert (Q : forall a b s m, In (a, b) two_populations -> In s four_populations -> is_mean s b a p lgm t tp m -> legal m).
  { intros a b s m Hab Hs (H1 & H2 & H3 & H4 & H5). destruct (legal_means p lgm t tp a b L Hab) as (x & y & z & E1 & E2 & E3 & B1 & B2 & B3 & B4).
    rewrite H3 in E1. rewrite H4 in E2. rewrite H2 in E3. apply Ok_inj in E1, E2, E3. subst x y z.
    pose proof (logm0_bounds p s lgm t tp _ L Hs Ht ltac:(lra) Hl H1). unfold legal. rewrite H5. lra. }
  split.
  - rewrite (scattered_zero me _ e Se); [exact Me| |intros x Hx; eapply Z; exact Hx].
    destruct g; eapply Q; [| |exact Me| | |exact Me]; cbn; auto.
  - rewrite (scattered_zero ml _ l Sl); [exact Ml| |intros x Hx; eapply Z; exact Hx].
    destruct g; eapply Q; [| |exact Ml| | |exact Ml]; cbn; auto.
Qed.
Print Assumptions C64_no_scatter.

Example C64_example : exists (G : rng R) (d : rec R) e l f tr, legal_pop d /\ (forall k' c x, In x (deviation G k' c) -> x = 0) /\
  mc_diffmah_params_single TN G Sat d 12 10 (Seed 0) 1 (Some 4) = (Ok (e, l, f), tr).
Proof.
  destruct default_legal as (d & E & L). exists (mkRng R (fun _ => 1/2) (fun _ n => repeat (1/2) n) (fun _ c => repeat 0 (fst c))).
  destruct (single_total (mkRng R (fun _ => 1/2) (fun _ n => repeat (1/2) n) (fun _ c => repeat 0 (fst c))) Sat d 12 10 (Seed 0) 1 (Some 4) L) as (e & l & f & tr & H).
  - split; intros; apply repeat_length.
  - exists d, e, l, f, tr. refine (conj L (conj _ H)). intros k' c x Hx. cbn in Hx. now apply repeat_spec in Hx.
Qed.

(** ** C65 *)

(** In floating point, ordinary halos get finite parameters and histories from
    every finite deviation, for every legal parameter set. *)
Theorem C65_ordinary_halos_finite : forall F (G : rng xr) g (p : rec R) lgm t k lgt0 otp tp e l f tr, legal_pop p ->
  0 <= t <= 15 -> 10 <= lgm <= 134/10 ->
  match otp with
  | Some x => x = Fin tp
  | None => peak_time F g (xrec p) (Fin lgm) (Fin t) lgt0 (uniform G (Split k 2 0)) = Ok (Fin tp)
  end -> 5/100 < tp < 20 ->
  (forall k' c, all_finite (deviation G k' c)) ->
  mc_diffmah_params_single F G g (xrec p) (Fin lgm) (Fin t) k lgt0 otp = (Ok (e, l, f), tr) ->
  forall h, h = e \/ h = l -> exists q, h = inject q /\ legal q /\ t_peak q = tp /\
    forall s z, 0 < s -> logmh_at_t_obs h (Fin s) (Fin z) = Fin (logmh_at_t_obs q s z).
Proof.
  intros F G g p lgm t k lgt0 otp tp e l f tr L Ht Hl Htp B Z H.
  apply single_inv in H. destruct H as (tp' & me & ml & cov & E & Me & Ml & _ & _ & Se & Sl & _).
  assert (tp' = Fin tp) as -> by (destruct otp; [congruence|rewrite Htp in E; apply Ok_inj in E; congruence]). clear E.
  assert (Q : forall a b s m d h, In (a, b) two_populations -> In s four_populations -> all_finite d ->
     is_mean s b a (xrec p) (Fin lgm) (Fin t) (Fin tp) m -> scattered m d h ->
     exists q, h = inject q /\ legal q /\ t_peak q = tp /\
       forall x z, 0 < x -> logmh_at_t_obs h (Fin x) (Fin z) = Fin (logmh_at_t_obs q x z)).
  { intros a b s m d h Hab Hs Hd Hm Hsc. apply x_is_mean in Hm. destruct Hm as (q & -> & H1 & H2 & H3 & H4 & H5).
    destruct (legal_means p lgm t tp a b L Hab) as (x & y & z & E1 & E2 & E3 & B1 & B2 & B3 & B4).
    rewrite H3 in E1. rewrite H4 in E2. rewrite H2 in E3. apply Ok_inj in E1, E2, E3. subst x y z.
    pose proof (logm0_bounds p s lgm t tp _ L Hs Ht ltac:(lra) Hl H1) as B5.
    assert (Lq : legal q) by (unfold legal; rewrite H5; lra).
    destruct (x_scattered q d h Lq Hd Hsc) as (w & dr & -> & Lw & _ & Sw).
    exists w. refine (conj eq_refl (conj Lw (conj _ _))).
    - rewrite (scattered_tp_R q dr w Sw); [exact H5|rewrite H5; exact B].
    - intros x z Hx. apply x_log_mah_fin; [exact Hx|]. destruct Lw as (_ & _ & _ & _ & Bw). lra. }
  intros h [-> | ->].
  - destruct g; eapply Q; [| |apply Z|exact Me|exact Se| | |apply Z|exact Me|exact Se]; cbn; auto.
  - destruct g; eapply Q; [| |apply Z|exact Ml|exact Sl| | |apply Z|exact Ml|exact Sl]; cbn; auto.
Qed.
Print Assumptions C65_ordinary_halos_finite.

(** At the high-mass end the generators silently return not-a-number: for every
    legal parameter set, generator, key and peak time, each realisation of a
    halo observed with log mass 16.99 or more has logm0 = NaN and a history
    that is NaN at every time. *)
Theorem C65_massive_halos_nan : forall F (G : rng xr) g (p : rec R) lgm t k lgt0 otp e l f tr, legal_pop p ->
  t <= 15 -> 1699/100 <= lgm ->
  mc_diffmah_params_single F G g (xrec p) (Fin lgm) (Fin t) k lgt0 otp = (Ok (e, l, f), tr) ->
  forall h, h = e \/ h = l -> logm0 h = NaN /\ forall s z, logmh_at_t_obs h s z = NaN.
Proof.
  intros F G g p lgm t k lgt0 otp e l f tr L Ht Hl H.
  apply single_inv in H. destruct H as (tp & me & ml & cov & _ & Me & Ml & _ & _ & Se & Sl & _).
  assert (Q : forall s b a m d h, In s four_populations ->
     is_mean s b a (xrec p) (Fin lgm) (Fin t) tp m -> scattered m d h -> logm0 h = NaN /\ forall x z, logmh_at_t_obs h x z = NaN).
  { intros s b a m d h Hs (H1 & _) Hsc. assert (E : logm0 h = NaN).
    { eapply scattered_big; [exact Hsc|]. eapply logm0_too_big; [exact L|exact Hs|exact Ht|exact Hl|exact H1]. }
    split; [exact E|]. intros x z. apply x_log_mah_nan_params. now left. }
  intros h [-> | ->].
  - destruct g; eapply Q; [|exact Me|exact Se| |exact Me|exact Se]; cbn; auto.
  - destruct g; eapply Q; [|exact Ml|exact Sl| |exact Ml|exact Sl]; cbn; auto.
Qed.
Print Assumptions C65_massive_halos_nan.

(** The full statement, that every realisation is finite, is therefore false:
    the call below succeeds and returns NaN. *)
Theorem C65_finite_refuted : exists p : rec R, legal_pop p /\
  forall F (G : rng xr) g k lgt0, shapely G -> exists e l f tr,
    mc_diffmah_params_single F G g (xrec p) (Fin 17) (Fin 10) k lgt0 (Some (Fin 5)) = (Ok (e, l, f), tr) /\
    logm0 e = NaN /\ logm0 l = NaN /\ forall s z, logmh_at_t_obs e s z = NaN /\ logmh_at_t_obs l s z = NaN.
Proof.
  destruct default_legal as (d & _ & L). exists d. split; [exact L|]. intros F G g k lgt0 HG.
  destruct (x_single_total F G g d 17 10 k lgt0 5 L HG) as (e & l & f & tr & H). exists e, l, f, tr.
  pose proof (C65_massive_halos_nan F G g d 17 10 k lgt0 _ e l f tr L ltac:(lra) ltac:(lra) H) as Q.
  refine (conj H (conj _ (conj _ _))); [apply Q; now left|apply Q; now right|].
  intros s z. split; apply Q; auto.
Qed.
Print Assumptions C65_finite_refuted.

(** The exact dividing line is the mean mass predicted for the halo's
    population: inside (0, 17) every realisation is finite, above 17 every one
    is NaN, whatever the finite deviations drawn. *)
Theorem C65_dividing_line : forall F (G : rng xr) g (p : rec R) lgm t k lgt0 otp tp e l f tr, legal_pop p ->
  match otp with
  | Some x => x = Fin tp
  | None => peak_time F g (xrec p) (Fin lgm) (Fin t) lgt0 (uniform G (Split k 2 0)) = Ok (Fin tp)
  end -> 5/100 < tp < 20 ->
  (forall k' c, all_finite (deviation G k' c)) ->
  mc_diffmah_params_single F G g (xrec p) (Fin lgm) (Fin t) k lgt0 otp = (Ok (e, l, f), tr) ->
  forall h s, (h, s) = (e, match g with Cen => "_early" | Sat => "_early_sats" end%string) \/
              (h, s) = (l, match g with Cen => "_late" | Sat => "_late_sats" end%string) ->
  exists m, pred_logm0_kern s p lgm t tp = Ok m /\
    (0 < m < 17 -> exists q, h = inject q /\ legal q /\ t_peak q = tp /\
      forall x z, 0 < x -> logmh_at_t_obs h (Fin x) (Fin z) = Fin (logmh_at_t_obs q x z)) /\
    (17 < m -> logm0 h = NaN /\ forall x z, logmh_at_t_obs h x z = NaN).
Proof.
  intros F G g p lgm t k lgt0 otp tp e l f tr L Htp B Z H.
  apply single_inv in H. destruct H as (tp' & me & ml & cov & E & Me & Ml & _ & _ & Se & Sl & _).
  assert (tp' = Fin tp) as -> by (destruct otp; [congruence|rewrite Htp in E; apply Ok_inj in E; congruence]). clear E.
  intros h s [E|E]; injection E as -> ->.
  - destruct (x_is_mean _ _ _ _ _ _ _ _ Me) as (q & _ & E & _). exists (logm0 q). refine (conj E (conj _ _)); intros Bm.
    + eapply realisation_finite; [exact L| |apply Z|exact B|exact Me|exact Se|exact E|exact Bm]. now left.
    + eapply realisation_nan; [exact Me|exact Se|exact E|exact Bm].
  - destruct (x_is_mean _ _ _ _ _ _ _ _ Ml) as (q & _ & E & _). exists (logm0 q). refine (conj E (conj _ _)); intros Bm.
    + eapply realisation_finite; [exact L| |apply Z|exact B|exact Ml|exact Sl|exact E|exact Bm]. right. now left.
    + eapply realisation_nan; [exact Ml|exact Sl|exact E|exact Bm].
Qed.
Print Assumptions C65_dividing_line.

(** The published parameters are on the right side of it up to clusters of
    10^15 observed after 3 Gyr. *)
Theorem C65_published_finite : forall F (G : rng xr) g (d : rec R) lgm t k lgt0 otp tp e l f tr,
  DEFAULT_DIFFMAHPOP_PARAMS = Ok d -> 3 <= t <= 15 -> 10 <= lgm <= 15 ->
  match otp with
  | Some x => x = Fin tp
  | None => peak_time F g (xrec d) (Fin lgm) (Fin t) lgt0 (uniform G (Split k 2 0)) = Ok (Fin tp)
  end -> 5/100 < tp < 20 ->
  (forall k' c, all_finite (deviation G k' c)) ->
  mc_diffmah_params_single F G g (xrec d) (Fin lgm) (Fin t) k lgt0 otp = (Ok (e, l, f), tr) ->
  forall h, h = e \/ h = l -> exists q, h = inject q /\ legal q /\ t_peak q = tp /\
    forall x z, 0 < x -> logmh_at_t_obs h (Fin x) (Fin z) = Fin (logmh_at_t_obs q x z).
Proof.
  intros F G g d lgm t k lgt0 otp tp e l f tr Ed Ht Hl Htp B Z H.
  destruct default_legal as (d' & Ed' & L). rewrite Ed in Ed'. apply Ok_inj in Ed'. subst d'.
  pose proof (C65_dividing_line F G g d lgm t k lgt0 otp tp e l f tr L Htp B Z H) as D.
  rewrite published_pdict in Ed. apply Ok_inj in Ed. subst d.
  intros h [-> | ->].
  - destruct (D e _ (or_introl eq_refl)) as (m & Em & D1 & _). apply D1.
    eapply published_bounds; [|exact Ht| |exact Hl|exact Em]; [destruct g; cbn; auto|lra].
  - destruct (D l _ (or_intror eq_refl)) as (m & Em & D1 & _). apply D1.
    eapply published_bounds; [|exact Ht| |exact Hl|exact Em]; [destruct g; cbn; auto|lra].
Qed.
Print Assumptions C65_published_finite.

Example C65_example : exists (G : rng xr) (d : rec R) e l f tr, legal_pop d /\ (forall k c, all_finite (deviation G k c)) /\
  mc_diffmah_params_single (fun x _ _ _ _ => x) G Cen (xrec d) (Fin 12) (Fin 10) (Seed 0) (Fin 1) (Some (Fin 5)) = (Ok (e, l, f), tr).
Proof.
  destruct default_legal as (d & _ & L).
  exists (mkRng xr (fun _ => Fin (1/2)) (fun _ n => repeat (Fin (1/2)) n) (fun _ c => repeat (Fin (1/10)) (fst c))), d.
  destruct (x_single_total (fun x _ _ _ _ => x)
    (mkRng xr (fun _ => Fin (1/2)) (fun _ n => repeat (Fin (1/2)) n) (fun _ c => repeat (Fin (1/10)) (fst c))) Cen d 12 10 (Seed 0) (Fin 1) 5 L) as (e & l & f & tr & H).
  - split; intros; apply repeat_length.
  - exists e, l, f, tr. refine (conj L (conj _ H)). intros k c x Hx. cbn in Hx. apply repeat_spec in Hx. eauto.
Qed.
