(** Dual-number differentiation of the history of one generated halo. *)

From Coq Require Import Reals String List Bool Arith ZArith Lia Lra.
From Coquelicot Require Import Coquelicot.
From Verif Require Import Model_Num RealAux Model_Base Model_Kernels Model_Utils Model_PopBase Model_PopData
  Model_PopParams Model_PopKernels Model_PopMC Model_Grad Spec_Kernels Spec_Utils Spec_Pop Spec_PopMC Spec_TruncNorm
  Spec_Grad Proofs_Kernels Proofs_AD Proofs_PopBase Proofs_PopParams Proofs_PopAll Proofs_PopProps
  Proofs_PopInterp Proofs_PopKernels Proofs_PopCov Proofs_PopTpeak Proofs_PopMC Proofs_PopMC2 Proofs_PopMC3 Proofs_PopAD
  Proofs_PopAD2 Proofs_PopAD3 Proofs_PopAD4 Proofs_PopAD5 Proofs_PopAD6.
Import ListNotations.
Local Open Scope R_scope.
Local Open Scope string_scope.

(** ** Unbounding and scatter *)

Lemma tracks_unbounded x f d : tracks_params f x d -> legal (f x) ->
  tracks_uparams (fun y => get_unbounded_mah_params (f y)) x (get_unbounded_mah_params d).
Proof.
  intros (H1 & H2 & H3 & H4 & H5) (L1 & L2 & L3 & L4 & L5).
  assert (K : BOUNDING_K (A := R) <> 0) by (unfold BOUNDING_K; cbn; lra).
  unfold tracks_uparams, get_unbounded_mah_params, get_u_early_late, get_unbounded_diffmah_param.
  cbn [u_logm0 u_logtc u_early_index u_late_index u_t_peak].
  cbn [MAH_PBOUNDS logm0 logtc early_index late_index t_peak fst snd].
  split; [|split; [|split; [|split]]].
  - apply (t_inverse_sigmoid x (fun y => logm0 (f y)) (fun _ => _) (fun _ => _) (fun _ => _) (fun _ => _));
      [exact H1|(unfold BOUNDING_K; tk)..|exact K|cbn; lra].
  - apply (t_inverse_sigmoid x (fun y => logtc (f y)) (fun _ => _) (fun _ => _) (fun _ => _) (fun _ => _));
      [exact H2|(unfold BOUNDING_K; tk)..|exact K|cbn; lra].
  - apply (t_inverse_sigmoid x (fun y => early_index (f y)) (fun _ => _) (fun _ => _) (fun y => late_index (f y)) (fun _ => _));
      [exact H3|(unfold BOUNDING_K; tk)|(unfold BOUNDING_K; tk)|exact H4|(unfold BOUNDING_K; tk)|exact K|cbn; lra].
  - apply (t_inverse_sigmoid x (fun y => late_index (f y)) (fun _ => _) (fun _ => _) (fun _ => _) (fun _ => _));
      [exact H4|(unfold BOUNDING_K; tk)..|exact K|cbn; lra].
  - apply (t_inverse_sigmoid x (fun y => t_peak (f y)) (fun _ => _) (fun _ => _) (fun _ => _) (fun _ => _));
      [exact H5|(unfold BOUNDING_K; tk)..|exact K|cbn; lra].
Qed.

Lemma t_scatter x unif unifs normal key (u : R -> DiffmahUParams R) du cov dcov :
  tracks_uparams u x du -> covt x cov dcov ->
  exists r dr w dw,
    (forall y, draw_mvnormal (jax_rng unif unifs normal) key (without_tp (u y)) (cov y) = (Ok (r y), [Normal key])) /\
    draw_mvnormal (jax_rng unif unifs normal) key (without_tp du) dcov = (Ok dr, [Normal key]) /\
    (forall y, with_tp (r y) (u_t_peak (u y)) = Ok (w y)) /\
    with_tp dr (u_t_peak du) = Ok dw /\
    tracks_uparams w x dw /\ (forall y, u_t_peak (w y) = u_t_peak (u y)).
Proof.
  intros (U1 & U2 & U3 & U4 & U5) HC. pose proof (t_deviation x unif unifs normal key cov dcov HC) as HD.
  destruct HC as (C1 & C2 & _).
  assert (LD : length (deviation (jax_rng unif unifs normal : rng (Dual R)) key dcov) = 4%nat).
  { cbn [jax_rng deviation]. now rewrite C2. }
  destruct HD as (L & EL & FL).
  remember (deviation (jax_rng unif unifs normal : rng (Dual R)) key dcov) as dl eqn:Edl.
  do 4 (destruct dl as [|? dl]; [discriminate LD|]). destruct dl; [|discriminate LD].
  repeat match goal with H : Forall2 _ _ (_ :: _) |- _ => inversion H; clear H; subst end.
  match goal with H : Forall2 _ _ [] |- _ => inversion H; clear H; subst end.
  cbn [map] in EL.
  eexists (fun y => [_; _; _; _]), [_; _; _; _], (fun y => mkUParams _ _ _ _ (u_t_peak (u y))), (mkUParams _ _ _ _ _).
  split; [|split; [|split; [|split; [|split]]]].
  - intros y. unfold draw_mvnormal. rewrite C1. cbn [without_tp length Nat.eqb]. rewrite EL. cbn [add_rows]. reflexivity.
  - unfold draw_mvnormal. rewrite C2. cbn [without_tp length Nat.eqb]. rewrite <- Edl. cbn [add_rows]. reflexivity.
  - intros y. cbn [with_tp]. reflexivity.
  - cbn [with_tp]. reflexivity.
  - unfold tracks_uparams. cbn [u_logm0 u_logtc u_early_index u_late_index u_t_peak].
    split; [|split; [|split; [|split]]]; [..|exact U5];
      match goal with H1 : tracks (fun y => ?f1 (u y)) x _ |- tracks (fun y => nadd (?f1 (u y)) (?r y)) x _ =>
        apply (t_add x (fun y => f1 (u y)) r); assumption end.
  - intros y. reflexivity.
Qed.

(** ** The history *)

Definition halot (x : R) (tarr : list R) (f : R -> DiffmahParams R) (d : DiffmahParams (Dual R)) : Prop :=
  tracks_params f x d /\ 0 < t_peak (f x) /\
  (forall s, In s tarr -> s = t_peak (f x) -> locally x (fun y => t_peak (f y) = t_peak (f x))).

Lemma scatter_halot x tarr m dm w dw :
  pmt x tarr m dm -> tracks_uparams w x dw ->
  (forall y, u_t_peak (w y) = u_t_peak (get_unbounded_mah_params (m y))) ->
  halot x tarr (fun y => get_bounded_mah_params (w y)) (get_bounded_mah_params dw).
Proof.
  intros (M1 & M2 & M3) TW EW.
  assert (EX : t_peak (get_bounded_mah_params (w x)) = t_peak (m x)).
  { rewrite bounded_t_peak, EW, unbounded_t_peak. destruct M2 as (_ & _ & _ & _ & B).
    now apply bounded_unbounded_param. }
  split; [|split].
  - exact (tracks_bounded w x dw TW).
  - cbn beta. rewrite EX. destruct M2 as (_ & _ & _ & _ & B). lra.
  - intros s Hs Es. cbn beta in Es. rewrite EX in Es. generalize (M3 s Hs Es). apply filter_imp.
    intros y Hy. rewrite !bounded_t_peak, !EW, !unbounded_t_peak. now rewrite Hy.
Qed.

Lemma log_mah_arr_map {A} {N : Num A} (p : DiffmahParams A) tarr lgt0 :
  snd (mah_singlehalo p tarr lgt0) = map (fun t => log_mah_kern p t lgt0) tarr.
Proof.
  unfold mah_singlehalo, diffmah_kern, log_mah_kern_arr, log_mah_kern. cbn [snd].
  induction tarr as [|t l IH]; [reflexivity|]. cbn [map where_list]. now rewrite IH.
Qed.

Lemma t_log_mah x tarr f d lgt0 : halot x tarr f d -> forall s, In s tarr -> 0 < s ->
  tracks (fun y => log_mah_kern (f y) s lgt0) x (log_mah_kern d (dlift s) (dlift lgt0)).
Proof.
  intros (H1 & H2 & H3) s Hs Ps. destruct (Req_dec s (t_peak (f x))) as [E|E].
  - pose (f' := fun y => mkParams (logm0 (f y)) (logtc (f y)) (early_index (f y)) (late_index (f y)) (t_peak (f x))).
    assert (LC := H3 s Hs E).
    apply (tracks_loc x (fun y => log_mah_kern (f' y) s lgt0)).
    + revert LC. apply filter_imp. intros y Hy. unfold f'. rewrite <- Hy. now destruct (f y).
    + apply (tracks_log_mah_fixed f' x d s (t_peak (f x))); auto.
      destruct H1 as (T1 & T2 & T3 & T4 & T5). unfold tracks_params, f'. cbn [logm0 logtc early_index late_index t_peak].
      refine (conj T1 (conj T2 (conj T3 (conj T4 _)))).
      apply (tracks_loc x (fun y => t_peak (f y))); [exact LC|exact T5].
  - apply tracks_log_mah; auto.
Qed.

Lemma LT_log_mah x tarr f d lgt0 : halot x tarr f d -> (forall s, In s tarr -> 0 < s) ->
  LT x (fun y => snd (mah_singlehalo (f y) tarr lgt0)) (snd (mah_singlehalo d (map dlift tarr) (dlift lgt0))).
Proof.
  intros H Hp. rewrite log_mah_arr_map, map_map.
  apply (LT_ext _ (fun y => map (fun t => log_mah_kern (f y) t lgt0) tarr)); [intros y; now rewrite log_mah_arr_map|].
  apply (LT_const_map (fun f d => tracks f x d) (fun y t => log_mah_kern (f y) t lgt0)
           (fun t => log_mah_kern d (dlift t) (dlift lgt0))).
  intros s Hs. apply (t_log_mah x tarr); auto.
Qed.

(** ** One halo *)

(** Histories with derivatives, one entry per tabulated time. *)
Definition hpt (x : R) (n : nat) (f : R -> HaloPair R) (d : HaloPair (Dual R)) : Prop :=
  LT x (fun y => pr_log_mah_early (f y)) (pr_log_mah_early d) /\
  LT x (fun y => pr_log_mah_late (f y)) (pr_log_mah_late d) /\
  tracks (fun y => pr_frac (f y)) x (pr_frac d) /\
  length (pr_log_mah_early d) = n /\ length (pr_log_mah_late d) = n.

Lemma shapely_jax unif unifs normal : shapely (jax_rng unif unifs normal : rng R).
Proof.
  split; intros; cbn [jax_rng uniforms deviation]; now rewrite map_length, seq_length.
Qed.

Section Single.
  Context (F : Dual R -> Dual R -> Dual R -> Dual R -> Dual R -> Dual R) (HF : exact_truncnorm F).
  Context (unif : key -> R) (unifs normal : key -> nat -> R).
  Context (x : R) (P : R -> rec R) (D : rec (Dual R)) (HP : rt x P D) (HS : smooth_pop (P x)).
  Context (tarr : list R) (Htarr : forall s, In s tarr -> 0 < s) (lgt0 : R).
  Context (fm ft : R -> R) (dm dt : Dual R) (Hm : tracks fm x dm) (Ht : tracks ft x dt).
  Local Notation GR := (jax_rng unif unifs normal : rng R).
  Local Notation GD := (jax_rng unif unifs normal : rng (Dual R)).

  Lemma rel_single g k :
    regular_halo g (P x) tarr (fm x) (ft x) lgt0 (unif (Split k 2 0)) ->
    rel (hpt x (length tarr)) (fun y => fst (mc_diffmah_single truncnorm_cdf_R GR g (P y) tarr (fm y) (ft y) k lgt0))
      (fst (mc_diffmah_single F GD g D (map dlift tarr) dm dt k (dlift lgt0))).
  Proof.
    intros (HD & HM). destruct HS as [HL HR].
    assert (ME := rel_mean F HF x fm ft dm dt Hm Ht tarr lgt0 (unif (Split k 2 0)) g "_early" "_alpha" P D
                    (or_introl eq_refl) HP HL HD (fun tp E => conj (proj1 (HM tp E)) (proj1 (proj2 (HM tp E))))).
    assert (ML := rel_mean F HF x fm ft dm dt Hm Ht tarr lgt0 (unif (Split k 2 0)) g "_late" "_beta" P D
                    (or_intror (or_introl eq_refl)) HP HL HD (fun tp E => conj (proj1 (HM tp E)) (proj2 (proj2 (HM tp E))))).
    destruct ME as (me & dme & EME & DME & TME). destruct ML as (ml & dml & EML & DML & TML).
    destruct (rel_cov x P D fm dm HL HR HP Hm) as (cv & dcv & ECV & DCV & TCV).
    destruct (single_total GR g (P x) (fm x) (ft x) k lgt0 None HL (shapely_jax _ _ _)) as (e0 & l0 & f0 & tr0 & E0).
    assert (EF0 : frac_early_cens_kern (P x) (fm x) (ft x) = Ok f0).
    { destruct (single_inv _ _ _ _ _ _ _ _ _ _ _ _ _ E0) as (? & ? & ? & ? & _ & _ & _ & _ & _ & _ & _ & EF & _). exact EF. }
    destruct (rel_frac x P D HP (P x) (fun _ _ h => h) fm ft dm dt Hm Ht f0 EF0) as (fr & dfr & EFR & DFR & TFR).
    destruct (t_scatter x unif unifs normal (Split k 2 0) _ _ _ _
                (tracks_unbounded x me dme (proj1 TME) (proj1 (proj2 TME))) TCV)
      as (re & dre & we & dwe & A1 & A2 & A3 & A4 & A5 & A6).
    destruct (t_scatter x unif unifs normal (Split k 2 1) _ _ _ _
                (tracks_unbounded x ml dml (proj1 TML) (proj1 (proj2 TML))) TCV)
      as (rl & drl & wl & dwl & B1 & B2 & B3 & B4 & B5 & B6).
    pose proof (scatter_halot x tarr me dme we dwe TME A5 A6) as HE.
    pose proof (scatter_halot x tarr ml dml wl dwl TML B5 B6) as HLa.
    exists (fun y => mkPair (get_bounded_mah_params (we y)) (fst (mah_singlehalo (get_bounded_mah_params (we y)) tarr lgt0))
                       (snd (mah_singlehalo (get_bounded_mah_params (we y)) tarr lgt0))
                       (get_bounded_mah_params (wl y)) (fst (mah_singlehalo (get_bounded_mah_params (wl y)) tarr lgt0))
                       (snd (mah_singlehalo (get_bounded_mah_params (wl y)) tarr lgt0)) (fr y)),
      (mkPair (get_bounded_mah_params dwe) (fst (mah_singlehalo (get_bounded_mah_params dwe) (map dlift tarr) (dlift lgt0)))
                       (snd (mah_singlehalo (get_bounded_mah_params dwe) (map dlift tarr) (dlift lgt0)))
                       (get_bounded_mah_params dwl) (fst (mah_singlehalo (get_bounded_mah_params dwl) (map dlift tarr) (dlift lgt0)))
                       (snd (mah_singlehalo (get_bounded_mah_params dwl) (map dlift tarr) (dlift lgt0))) dfr).
    split; [|split].
    - intros y. unfold mc_diffmah_single, mc_diffmah_params_single, mean_diffmah_params.
      rewrite !fst_mbind. rewrite mean_early_pure. cbn [jax_rng uniform]. rewrite EME. cbn [bind].
      rewrite !fst_mbind. rewrite mean_late_pure. cbn [jax_rng uniform]. rewrite EML. cbn [bind].
      rewrite !fst_mbind. cbn [mlift fst]. rewrite EFR. cbn [bind mret fst].
      rewrite !fst_mbind. cbn [mlift fst]. rewrite ECV. cbn [bind].
      rewrite !fst_mbind. rewrite A1. cbn [fst bind].
      rewrite !fst_mbind. cbn [mlift fst]. rewrite A3. cbn [bind].
      rewrite !fst_mbind. rewrite B1. cbn [fst bind].
      rewrite !fst_mbind. cbn [mlift fst]. rewrite B3. cbn [bind mret fst]. reflexivity.
    - unfold mc_diffmah_single, mc_diffmah_params_single, mean_diffmah_params.
      rewrite !fst_mbind. rewrite mean_early_pure. cbn [jax_rng uniform]. rewrite DME. cbn [bind].
      rewrite !fst_mbind. rewrite mean_late_pure. cbn [jax_rng uniform]. rewrite DML. cbn [bind].
      rewrite !fst_mbind. cbn [mlift fst]. rewrite DFR. cbn [bind mret fst].
      rewrite !fst_mbind. cbn [mlift fst]. rewrite DCV. cbn [bind].
      rewrite !fst_mbind. rewrite A2. cbn [fst bind].
      rewrite !fst_mbind. cbn [mlift fst]. rewrite A4. cbn [bind].
      rewrite !fst_mbind. rewrite B2. cbn [fst bind].
      rewrite !fst_mbind. cbn [mlift fst]. rewrite B4. cbn [bind mret fst]. reflexivity.
    - unfold hpt. cbn [pr_log_mah_early pr_log_mah_late pr_frac].
      split; [|split; [|split; [|split]]].
      + exact (LT_log_mah x tarr _ _ lgt0 HE Htarr).
      + exact (LT_log_mah x tarr _ _ lgt0 HLa Htarr).
      + exact TFR.
      + rewrite log_mah_arr_map, !map_length. reflexivity.
      + rewrite log_mah_arr_map, !map_length. reflexivity.
  Qed.
End Single.
