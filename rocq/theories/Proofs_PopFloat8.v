(** Generated halos in machine arithmetic. *)

From Coq Require Import Reals ZArith String List Bool Arith Lra Lia.
From Flocq Require Import Core.
From Verif Require Import Model_Num Model_Kernels Model_Base Model_Utils Model_PopBase Model_PopData
  Model_PopParams Model_PopKernels Model_PopMC Model_Float Spec_Kernels Spec_Pop Spec_PopMC Spec_Float Spec_PopFloat
  RealAux Proofs_Float Proofs_Float2 Proofs_Float3 Proofs_Float4 Proofs_Float5 Proofs_PopBase Proofs_PopAll
  Proofs_PopKernels Proofs_PopCov Proofs_PopMC Proofs_PopFloat2 Proofs_PopFloat6 Proofs_PopFloat7.
Import ListNotations.
Local Open Scope R_scope.
Local Open Scope string_scope.

(** ** The call raises no exception, whatever the numbers *)

Section Total.
  Context {A : Type} {N : Num A}.

  (** The tuple has these fields. *)
  Definition fields_of (needed : list string) (p : rec A) : Prop := forall k, In k needed -> exists v, getattr p k = Ok v.

  Lemma shaped_fields (p : rec A) names needed : shaped names p ->
    forallb (fun k => existsb (String.eqb k) names) needed = true -> fields_of needed p.
  Proof.
    intros Hs H k Hk. rewrite forallb_forall in H. specialize (H k Hk).
    apply existsb_exists in H. destruct H as (k' & Hin & E). apply String.eqb_eq in E. subst k'.
    unfold shaped in Hs. apply in_fields_getattr. unfold fields. now rewrite Hs.
  Qed.

  Ltac rd1 H := match goal with
    | |- context [getattr ?q ?k] =>
        let v := fresh "v" in let E := fresh "E" in
        destruct (H k ltac:(cbn [In map append]; tauto)) as (v & E); rewrite E; cbn [bind]
    end.

  Lemma logm0_total s (p : rec A) lgm t tp :
    fields_of (map (fun x => x ++ s) ["lgm0pop_c0_ytp"; "lgm0pop_c0_t_obs_x0"; "lgm0pop_c0_ylo"; "lgm0pop_c0_clip_c0";
      "lgm0pop_c0_clip_c1"; "lgm0pop_c1_ytp"; "lgm0pop_c1_t_obs_x0"; "lgm0pop_c1_ylo"; "lgm0pop_c1_clip_x0";
      "lgm0pop_c1_clip_ylo"; "lgm0pop_c1_clip_yhi"]) p ->
    exists v, pred_logm0_kern s p lgm t tp = Ok v.
  Proof.
    intros H. cbn [map] in H. unfold pred_logm0_kern.
    assert (E0 : exists v, pred_c0_kern s p t tp = Ok v).
    { unfold pred_c0_kern. do 5 rd1 H. eexists. reflexivity. }
    assert (E1 : exists v, pred_c1_kern s p t tp = Ok v).
    { unfold pred_c1_kern. do 6 rd1 H. eexists. reflexivity. }
    destruct E0 as (v0 & ->). destruct E1 as (v1 & ->). cbn [bind]. eexists. reflexivity.
  Qed.

  Lemma logtc_total s (p : rec A) lgm t tp :
    fields_of (map (fun x => x ++ s) ["logtc_lgm_c0_tp_ytp_tobs_c0"; "logtc_lgm_c0_tp_ytp_tobs_c1"; "logtc_lgm_c0_tp_ylo";
      "logtc_lgm_c0_tp_yhi"; "logtc_c0_ss_x0"; "logtc_lgm_c1"]) p ->
    exists v, pred_logtc_kern s p lgm t tp = Ok v.
  Proof. intros H. cbn [map] in H. unfold pred_logtc_kern, get_c0. do 6 rd1 H. eexists. reflexivity. Qed.

  Lemma early_total s (p : rec A) lgm t tp :
    fields_of (map (fun x => x ++ s) ["early_index_ylo_x0"; "early_index_ylo_ylo"; "early_index_ylo_yhi";
      "early_index_yhi_x0"; "early_index_yhi_ylo"; "early_index_yhi_yhi"; "early_index_lgm_x0"]) p ->
    exists v, pred_early_index_kern s p lgm t tp = Ok v.
  Proof. intros H. cbn [map] in H. unfold pred_early_index_kern. do 7 rd1 H. eexists. reflexivity. Qed.

  Lemma late_total s (p : rec A) lgm :
    fields_of (map (fun x => x ++ s) ["late_index_x0"; "late_index_ylo"; "late_index_yhi"]) p ->
    exists v, pred_late_index_kern s p lgm = Ok v.
  Proof. intros H. cbn [map] in H. unfold pred_late_index_kern. do 3 rd1 H. eexists. reflexivity. Qed.

  Lemma frac_total (p : rec A) lgm t :
    fields_of ["fec_t_obs_x0"; "fec_lgm_ylo_early"; "fec_lgm_ylo_late"; "fec_lgm_yhi_early"; "fec_lgm_yhi_late"; "fec_lgm_x0"] p ->
    exists v, frac_early_cens_kern p lgm t = Ok v.
  Proof. intros H. unfold frac_early_cens_kern. do 6 rd1 H. eexists. reflexivity. Qed.

  Lemma std_total (p : rec A) lgm q :
    fields_of ["cov_lgm_x0_" ++ q; "std_u_" ++ q ++ "_ylo"; "std_u_" ++ q ++ "_yhi"] p ->
    exists v, cov_std p lgm q = Ok v.
  Proof. intros H. unfold cov_std. do 3 rd1 H. eexists. reflexivity. Qed.

  Lemma shaped_components (p : rec A) : shaped (map fst pop_bounds) p -> exists a b c d e f h i j,
    get_component_model_params p = Ok [a; b; c; d; e; f; h; i; j] /\
    shaped (c_names TPCENS_FLEX) a /\ shaped (c_names TP_SATS) b /\
    shaped (c_names LGM0_BIMOD) c /\ shaped (c_names LGM0_BIMOD_SATS) d /\
    shaped (c_names LOGTC_BIMOD) e /\ shaped (c_names EARLY_INDEX_BIMOD) f /\ shaped (c_names LATE_INDEX_BIMOD) h.
  Proof.
    intros Hs. rewrite pop_bounds_names in Hs. destruct (component_params_slices p Hs) as (ps & E & _ & Q).
    unfold COMPONENTS in Q.
    repeat match goal with Q : Forall2 _ (_ :: _) _ |- _ => inversion Q; clear Q; subst end.
    match goal with Q : Forall2 _ [] _ |- _ => inversion Q; subst end.
    do 9 eexists. split; [exact E|]. refine (conj _ (conj _ (conj _ (conj _ (conj _ (conj _ _)))))); assumption.
  Qed.

  Ltac has_fields H := apply (shaped_fields _ _ _ H); vm_compute; reflexivity.

  Lemma kernels_total g (c d e f h : rec A) lgm t tp s s' s'' :
    shaped (c_names LGM0_BIMOD) c -> shaped (c_names LGM0_BIMOD_SATS) d -> shaped (c_names LOGTC_BIMOD) e ->
    shaped (c_names EARLY_INDEX_BIMOD) f -> shaped (c_names LATE_INDEX_BIMOD) h ->
    In (s, s', s'') [("_early", "_early", "_alpha"); ("_late", "_late", "_beta")] ->
    exists v0 v1 v2 v3, pred_logm0_kern (sfx_of g s) (logm0_of g c d) lgm t tp = Ok v0 /\
      pred_logtc_kern s' e lgm t tp = Ok v1 /\ pred_early_index_kern s'' f lgm t tp = Ok v2 /\
      pred_late_index_kern s'' h lgm = Ok v3.
  Proof.
    intros Pc Pd Pe Pf Ph Hin.
    assert (Q0 : exists v, pred_logm0_kern (sfx_of g s) (logm0_of g c d) lgm t tp = Ok v).
    { destruct Hin as [Hin|[Hin|[]]]; injection Hin as <- <- <-; destruct g; cbn [sfx_of logm0_of append];
        apply logm0_total; [has_fields Pc|has_fields Pd|has_fields Pc|has_fields Pd]. }
    assert (Q1 : exists v, pred_logtc_kern s' e lgm t tp = Ok v).
    { destruct Hin as [Hin|[Hin|[]]]; injection Hin as <- <- <-; apply logtc_total; has_fields Pe. }
    assert (Q2 : exists v, pred_early_index_kern s'' f lgm t tp = Ok v).
    { destruct Hin as [Hin|[Hin|[]]]; injection Hin as <- <- <-; apply early_total; has_fields Pf. }
    assert (Q3 : exists v, pred_late_index_kern s'' h lgm = Ok v).
    { destruct Hin as [Hin|[Hin|[]]]; injection Hin as <- <- <-; apply late_total; has_fields Ph. }
    destruct Q0 as (v0 & E0), Q1 as (v1 & E1), Q2 as (v2 & E2), Q3 as (v3 & E3).
    exists v0, v1, v2, v3. exact (conj E0 (conj E1 (conj E2 E3))).
  Qed.

  Lemma means_total g (p : rec A) lgm t tp : shaped (map fst pop_bounds) p ->
    (exists m, mean_diffmah_params_early_t_peak g p lgm t tp = Ok m) /\
    (exists m, mean_diffmah_params_late_t_peak g p lgm t tp = Ok m).
  Proof.
    intros Hs. destruct (shaped_components p Hs) as (a & b & c & d & e & f & h & i & j & E & _ & _ & Pc & Pd & Pe & Pf & Ph).
    pose proof (kernels_total g c d e f h lgm t tp) as Q.
    unfold mean_diffmah_params_early_t_peak, mean_diffmah_params_late_t_peak. rewrite E. cbn [bind unpack9].
    split.
    - destruct (Q "_early" "_early" "_alpha" Pc Pd Pe Pf Ph ltac:(left; reflexivity)) as (v0 & v1 & v2 & v3 & E0 & E1 & E2 & E3).
      rewrite E0. cbn [bind]. rewrite E1. cbn [bind]. rewrite E2. cbn [bind]. rewrite E3. cbn [bind].
      eexists. reflexivity.
    - destruct (Q "_late" "_late" "_beta" Pc Pd Pe Pf Ph ltac:(right; left; reflexivity)) as (v0 & v1 & v2 & v3 & E0 & E1 & E2 & E3).
      rewrite E0. cbn [bind]. rewrite E1. cbn [bind]. rewrite E2. cbn [bind]. rewrite E3. cbn [bind].
      eexists. reflexivity.
  Qed.

  Lemma cen_total (p : rec A) lgm t t0 u : shaped (c_names TPCENS_FLEX) p ->
    exists tp, tpeak_cen_of_uran p lgm t t0 u = Ok tp.
  Proof.
    intros Hs. assert (H : fields_of ["cen_tp_lgm_x0_x0"; "cen_tp_x0_ylo_early"; "cen_tp_x0_yhi_early"; "cen_tp_x0_ylo_late";
      "cen_tp_x0_yhi_late"; "cen_tp_t_obs_x0_x0"] p) by has_fields Hs.
    unfold tpeak_cen_of_uran, utp_of_uran, frac_peaked_vs_lgm, get_utp_x0_from_lgm. do 6 rd1 H. eexists. reflexivity.
  Qed.

  Lemma sat_total Tn (p : rec A) lgm t u : shaped (c_names TP_SATS) p ->
    exists tp, tpeak_sat_of_uran Tn p lgm t u = Ok tp.
  Proof.
    intros Hs. assert (H : fields_of ["utp_loc_lgm_ylo_t0"; "utp_loc_lgm_ylo_early"; "utp_loc_lgm_ylo_late"; "utp_loc_lgm_x0";
      "utp_scale_lgm_ylo_t0"; "utp_scale_lgm_ylo_early"; "utp_scale_lgm_ylo_late"] p) by has_fields Hs.
    unfold tpeak_sat_of_uran, get_utp_loc, get_utp_loc_lgm_ylo, get_utp_scale, get_utp_scale_lgm_ylo.
    do 7 rd1 H. eexists. reflexivity.
  Qed.

  Lemma drawn_means_total Tn (G : rng A) g (p : rec A) lgm t k lgt0 : shaped (map fst pop_bounds) p ->
    (exists m tr, mean_diffmah_params_early Tn G g p lgm t k lgt0 = (Ok m, tr)) /\
    (exists m tr, mean_diffmah_params_late Tn G g p lgm t k lgt0 = (Ok m, tr)).
  Proof.
    intros Hs. destruct (shaped_components p Hs) as (a & b & c & d & e & f & h & i & j & E & Pa & Pb & Pc & Pd & Pe & Pf & Ph).
    assert (Q : exists tp, match g with
                    | Cen => mc_tpeak_singlecen G a lgm t (Split k 2 0) (npow10 lgt0)
                    | Sat => mc_tpeak_singlesat Tn G b (Split k 2 0) lgm t
                    end = (Ok tp, [Uniform (Split k 2 0)])).
    { destruct g.
      - destruct (cen_total a lgm t (npow10 lgt0) (uniform G (Split k 2 0)) Pa) as (tp & Et).
        exists tp. unfold mc_tpeak_singlecen. apply (mbind_eval _ _ (uniform G (Split k 2 0)) [Uniform (Split k 2 0)] (Ok tp) []); [reflexivity|].
        exact (mlift_eval _ _ Et).
      - destruct (sat_total Tn b lgm t (uniform G (Split k 2 0)) Pb) as (tp & Et).
        exists tp. unfold mc_tpeak_singlesat. apply (mbind_eval _ _ (uniform G (Split k 2 0)) [Uniform (Split k 2 0)] (Ok tp) []); [reflexivity|].
        exact (mlift_eval _ _ Et). }
    destruct Q as (tp & Q). pose proof (kernels_total g c d e f h lgm t tp) as K.
    split.
    - destruct (K "_early" "_early" "_alpha" Pc Pd Pe Pf Ph ltac:(left; reflexivity)) as (v0 & v1 & v2 & v3 & E0 & E1 & E2 & E3).
      unfold mean_diffmah_params_early.
      do 2 eexists. eapply mbind_eval; [apply mlift_eval, E|]. eapply mbind_eval; [apply mlift_eval; reflexivity|].
      cbn beta iota. eapply mbind_eval; [exact Q|]. eapply mbind_eval; [apply mlift_eval, E0|].
      eapply mbind_eval; [apply mlift_eval, E1|]. eapply mbind_eval; [apply mlift_eval, E2|].
      eapply mbind_eval; [apply mlift_eval, E3|]. reflexivity.
    - destruct (K "_late" "_late" "_beta" Pc Pd Pe Pf Ph ltac:(right; left; reflexivity)) as (v0 & v1 & v2 & v3 & E0 & E1 & E2 & E3).
      unfold mean_diffmah_params_late.
      do 2 eexists. eapply mbind_eval; [apply mlift_eval, E|]. eapply mbind_eval; [apply mlift_eval; reflexivity|].
      cbn beta iota. eapply mbind_eval; [exact Q|]. eapply mbind_eval; [apply mlift_eval, E0|].
      eapply mbind_eval; [apply mlift_eval, E1|]. eapply mbind_eval; [apply mlift_eval, E2|].
      eapply mbind_eval; [apply mlift_eval, E3|]. reflexivity.
  Qed.

  Lemma cov_total (p : rec A) lgm : shaped (map fst pop_bounds) p ->
    exists M, get_diffmahpop_cov p lgm = Ok (4%nat, M).
  Proof.
    intros Hs. unfold get_diffmahpop_cov, get_cov_params.
    assert (Q : forall q, In q cov_quantities -> exists v, cov_std p lgm q = Ok v).
    { intros q [<-|[<-|[<-|[<-|[]]]]]; apply std_total; has_fields Hs. }
    destruct (Q "logm0") as (v0 & ->); [cbn; tauto|]. destruct (Q "logtc") as (v1 & ->); [cbn; tauto|].
    destruct (Q "early") as (v2 & ->); [cbn; tauto|]. destruct (Q "late") as (v3 & ->); [cbn; tauto|]. cbn [bind].
    assert (Er : filter is_rho (fields p) = RHO_NAMES) by (unfold fields; rewrite Hs; vm_compute; reflexivity).
    rewrite Er.
    assert (E : exists vs, getattrs p RHO_NAMES = Ok vs).
    { assert (K : fields_of RHO_NAMES p) by has_fields Hs. clear Er Hs Q. revert K.
      generalize RHO_NAMES as ks. intros ks K. induction ks as [|k ks IH]; [eexists; reflexivity|].
      destruct IH as (vs & Ev); [intros k' Hk; apply K; now right|].
      destruct (K k ltac:(now left)) as (v & Ek). exists (v :: vs). unfold getattrs in *. cbn [mapM].
      rewrite Ek. cbn [bind]. rewrite Ev. reflexivity. }
    destruct E as (vs & Ev). rewrite Ev. cbn [bind]. apply getattrs_length in Ev.
    unfold cholesky_from_params. cbn [map app List.length]. rewrite Ev. eexists. reflexivity.
  Qed.

  Lemma any_single_total Tn (G : rng A) g (p : rec A) lgm t k lgt0 otp : shaped (map fst pop_bounds) p -> shapely G ->
    exists e l f tr, mc_diffmah_params_single Tn G g p lgm t k lgt0 otp = (Ok (e, l, f), tr).
  Proof.
    intros Hs [_ HG].
    assert (Q : exists me ml f tr, match otp with
        | None => mean_diffmah_params Tn G g p lgm t k lgt0
        | Some tp => mean_diffmah_params_t_peak g p lgm t tp
        end = (Ok (me, ml, f), tr)).
    { destruct (frac_total p lgm t) as (f & Ef); [has_fields Hs|].
      destruct otp as [tp|].
      - destruct (means_total g p lgm t tp Hs) as [(me & Ee) (ml & El)]. exists me, ml, f. eexists.
        unfold mean_diffmah_params_t_peak. eapply mbind_eval; [apply mlift_eval, Ee|]. eapply mbind_eval; [apply mlift_eval, El|].
        eapply mbind_eval; [apply mlift_eval, Ef|]. reflexivity.
      - destruct (drawn_means_total Tn G g p lgm t k lgt0 Hs) as [(me & te & Ee) (ml & tl & El)]. exists me, ml, f. eexists.
        unfold mean_diffmah_params. eapply mbind_eval; [exact Ee|]. eapply mbind_eval; [exact El|].
        eapply mbind_eval; [apply mlift_eval, Ef|]. reflexivity. }
    destruct Q as (me & ml & f & tr & Q).
    destruct (cov_total p lgm Hs) as (M & Ec).
    assert (D : forall k' m, exists u, with_tp (add_rows (without_tp m) (deviation G k' (4%nat, M))) (u_t_peak m) = Ok u).
    { intros k' m. specialize (HG k' (4%nat, M)). cbn in HG.
      destruct (deviation G k' (4%nat, M)) as [|d1 [|d2 [|d3 [|d4 [|d5 ds]]]]]; try discriminate HG.
      eexists. reflexivity. }
    destruct (D (Split k 2 0) (get_unbounded_mah_params me)) as (ue & De).
    destruct (D (Split k 2 1) (get_unbounded_mah_params ml)) as (ul & Dl).
    do 4 eexists. unfold mc_diffmah_params_single.
    eapply mbind_eval; [exact Q|]. cbn beta iota zeta. eapply mbind_eval; [apply mlift_eval, Ec|].
    eapply mbind_eval; [reflexivity|]. eapply mbind_eval; [apply mlift_eval, De|].
    eapply mbind_eval; [reflexivity|]. eapply mbind_eval; [apply mlift_eval, Dl|]. reflexivity.
  Qed.
End Total.

(** ** Legality *)

Section Halos.
  Variables emin prec : Z.
  Hypothesis Hprec : (20 <= prec)%Z.
  Hypothesis Hemin : (emin <= - prec - 100)%Z.
  Variable F : arith.
  Hypothesis HA : faithful emin prec F.
  Variable big : R.
  Hypothesis HB : bpow radix2 120 <= big.

  Local Notation X := (Num_xfl F big).
  Local Notation rd := (rnd F).
  Local Notation bx := (box F).
  Let HF := fa_ordered _ _ _ HA.
  Let bconst := box_const emin prec Hprec Hemin F HA big HB.
  Let badd := box_add emin prec Hprec Hemin F HA big HB.
  Let bmul := box_mul emin prec Hprec Hemin F HA big HB.
  Let bint := bconst_int emin prec Hprec Hemin F HA big HB.

  Lemma near_provides c p : incl (c_bdict c) pop_bounds -> near_legal_pop F tol p -> nprovides F c p.
  Proof.
    intros Hi [Hs Hb]. split.
    - unfold shaped in Hs. rewrite Hs, pop_bounds_names. apply pop_names_nodup.
    - intros k lo hi Hin. apply Hb. now apply Hi.
  Qed.

  Lemma bounding_k : exists k, @BOUNDING_K xr X = Fin k /\ 0 < k.
  Proof.
    destruct (bconst (1 / 10) ltac:(apply Rabs_le; lra)) as (k & E & _ & B). exists k. split; [exact E|].
    unfold dlt in B. lra.
  Qed.

  Lemma unbound_not_nan : forall y lo hi, machine F lo -> machine F hi -> machine F y ->
    lo <= y <= hi -> lo + 1 <= hi -> -60 <= lo -> hi <= 60 ->
    @get_unbounded_diffmah_param xr X (Fin y) (Fin lo, Fin hi) <> NaN.
  Proof.
    intros y lo hi Ml Mh My Hy Hl L1 L2. unfold get_unbounded_diffmah_param.
    destruct bounding_k as (k & -> & Hk).
    assert (M : bx (@nmul xr X (@nconst xr X (1 / 2)) (@nadd xr X (Fin lo) (Fin hi))) (-125) 125).
    { pose proof (badd _ _ _ _ _ _ (box_fin F lo Ml) (box_fin F hi Mh) ltac:(lra) ltac:(lra)) as S.
      eapply box_weaken; [apply (bmul _ _ _ _ _ _ (-124) 124 (bconst (1 / 2) ltac:(apply Rabs_le; lra)) S); [|lra|lra] | |];
        unfold dlt; try lra. intros r s Br Bs. unfold dlt in Br, Bs.
      assert (-121 <= s <= 121) by lra. assert (4 / 10 <= r <= 6 / 10) by lra. nra. }
    destruct M as (m & -> & _).
    now apply (inverse_not_nan emin prec Hprec Hemin F HA big HB).
  Qed.

  Lemma const_int : forall z, (Z.abs z < 64)%Z -> @nconst xr X (IZR z) = Fin (IZR z).
  Proof. intros z Hz. destruct (bint z Hz) as (r & -> & _ & B). f_equal. lra. Qed.

  Lemma const_small : forall r, Rabs r <= 127 -> @nconst xr X r = Fin (rd r).
  Proof.
    intros r Hr. apply (pconst emin prec Hprec Hemin F HA big HB). change (bpow radix2 7) with 128. lra.
  Qed.

  Lemma int_machine : forall z, (Z.abs z < 64)%Z -> machine F (IZR z).
  Proof. intros z Hz. apply (faithful_int emin prec Hprec Hemin F HA z Hz). Qed.

  Lemma machine_above : forall r c, machine F r -> c <= r -> rd c <= r.
  Proof. intros r c M H. rewrite <- M. now apply (oa_mono F HF). Qed.

  Lemma scattered_legal : forall m d h tp, bx (logm0 m) 0 17 -> bx (logtc m) (-1) 1 ->
    bx (early_index m) (49 / 100) (401 / 100) -> bx (late_index m) (1 / 10) (21 / 100) ->
    t_peak m = Fin tp -> machine F tp -> rd (5 / 100) <= tp <= 20 ->
    all_finite d -> @scattered xr X m d h -> exists q, h = inject q /\ machine_legal F q.
  Proof.
    intros m d h tp (y0 & E0 & M0 & B0) (y1 & E1 & M1 & B1) (y2 & E2 & M2 & B2) (y3 & E3 & M3 & B3) E4 M4 B4 Hd
      (d1 & d2 & d3 & d4 & rest & -> & ->).
    destruct (Hd d1) as (r1 & ->); [cbn; tauto|]. destruct (Hd d2) as (r2 & ->); [cbn; tauto|].
    destruct (Hd d3) as (r3 & ->); [cbn; tauto|]. destruct (Hd d4) as (r4 & ->); [cbn; tauto|].
    unfold get_unbounded_mah_params, get_u_early_late. rewrite E0, E1, E2, E3, E4.
    unfold MAH_PBOUNDS. cbn [logm0 logtc early_index late_index t_peak u_logm0 u_logtc u_early_index u_late_index u_t_peak snd].
    rewrite (const_int 0), (const_int 17), (const_int (-1)), (const_int 1), (const_int 10), (const_int 5), (const_int 20) by lia.
    rewrite (const_small (1 / 10)), (const_small (5 / 100)) by (apply Rabs_le; lra).
    pose proof (rd_dlt emin prec Hprec Hemin F HA (1 / 10) ltac:(apply Rabs_le; lra)) as T1. apply Rabs_le_inv in T1.
    pose proof (rd_dlt emin prec Hprec Hemin F HA (5 / 100) ltac:(apply Rabs_le; lra)) as T2. apply Rabs_le_inv in T2.
    unfold dlt in T1, T2.
    pose proof (machine_above _ _ M3 (proj1 B3)) as B3'.
    assert (I : forall c, machine F (rd c)) by (intros c; apply (oa_idem F HF)).
    apply (faithful_bounded emin prec Hprec Hemin F HA big HB);
      cbn [u_logm0 u_logtc u_early_index u_late_index u_t_peak].
    - apply add_not_nan. apply unbound_not_nan; try (apply int_machine; lia); [exact M0 | lra | lra | lra | lra].
    - apply add_not_nan. apply unbound_not_nan; try (apply int_machine; lia); [exact M1 | lra | lra | lra | lra].
    - apply add_not_nan. destruct bounding_k as (k & -> & Hk).
      apply (inverse_not_nan emin prec Hprec Hemin F HA big HB); try lra; try (apply int_machine; lia); assumption.
    - apply add_not_nan. apply unbound_not_nan; try (apply int_machine; lia); [apply I | exact M3 | lra | lra | lra | lra].
    - apply unbound_not_nan; try (apply int_machine; lia); [apply I | exact M4 | lra | lra | lra | lra].
  Qed.

  (** The two populations of either kind of galaxy. *)
  Lemma mean_box : forall m0 tc ix p lgm t tp m c0 c1,
    near_legal_pop F tol p -> In (m0, c0, c1) m0_populations ->
    (tc = "_early" \/ tc = "_late") -> (ix = "_alpha" \/ ix = "_beta") ->
    machine F lgm -> 6 <= lgm <= 134 / 10 -> machine F t -> 0 <= t <= 15 ->
    machine F tp -> 0 <= tp <= 20 ->
    @is_mean xr X m0 tc ix p (Fin lgm) (Fin t) (Fin tp) m ->
    bx (logm0 m) 0 17 /\ bx (logtc m) (-1) 1 /\ bx (early_index m) (49 / 100) (401 / 100) /\
    bx (late_index m) (1 / 10) (21 / 100) /\ t_peak m = Fin tp.
  Proof.
    intros m0 tc ix p lgm t tp m c0 c1 L Hm Htc Hix Ml Hl Mt Ht Mp Hp (E0 & E1 & E2 & E3 & E4).
    assert (Bl := box_fin F lgm Ml). assert (Bt := box_fin F t Mt). assert (Bp := box_fin F tp Mp).
    assert (P : forall c, In c [ TPCENS_FLEX; TP_SATS;
        LGM0_C0_EARLY; LGM0_C1_EARLY; LGM0_C0_LATE; LGM0_C1_LATE;
        LGM0_C0_EARLY_SATS; LGM0_C1_EARLY_SATS; LGM0_C0_LATE_SATS; LGM0_C1_LATE_SATS;
        LOGTC_EARLY; LOGTC_LATE; EARLY_INDEX_ALPHA; EARLY_INDEX_BETA;
        LATE_INDEX_ALPHA; LATE_INDEX_BETA; FEC; COV ] -> nprovides F c p).
    { intros c Hc. apply near_provides; [now apply incl_pop | exact L]. }
    assert (N : forall r, Fin r <> NaN) by discriminate.
    split; [|split; [|split; [|split; [|exact E4]]]].
    - destruct (logm0_box emin prec Hprec Hemin F HA big HB m0 c0 c1 p lgm (Fin t) (Fin tp) t t tp tp Hm) as (v & E & B);
        [| |exact Ml|exact Hl|exact Bt|lra|lra|exact Bp|lra|lra|].
      + apply P. destruct Hm as [Q|[Q|[Q|[Q|[]]]]]; injection Q as <- <- <-; in_list.
      + apply P. destruct Hm as [Q|[Q|[Q|[Q|[]]]]]; injection Q as <- <- <-; in_list.
      + rewrite E in E0. injection E0 as <-. eapply box_weaken; [exact B | lra | lra].
    - assert (K : exists v, @pred_logtc_kern xr X tc p (Fin lgm) (Fin t) (Fin tp) = Ok v /\ bx v (-1) 1).
      { destruct Htc as [-> | ->].
        - eapply (logtc_box emin prec Hprec Hemin F HA big HB "_early" LOGTC_EARLY); [in_list|apply P; in_list|exact Bl|lra|lra|exact Bt|lra|lra|exact Bp|lra|lra].
        - eapply (logtc_box emin prec Hprec Hemin F HA big HB "_late" LOGTC_LATE); [in_list|apply P; in_list|exact Bl|lra|lra|exact Bt|lra|lra|exact Bp|lra|lra]. }
      destruct K as (v & E & B). rewrite E in E1. injection E1 as <-. exact B.
    - assert (K : exists v, @pred_early_index_kern xr X ix p (Fin lgm) (Fin t) (Fin tp) = Ok v /\ bx v (49 / 100) (401 / 100)).
      { destruct Hix as [-> | ->].
        - apply (early_box emin prec Hprec Hemin F HA big HB "_alpha" EARLY_INDEX_ALPHA); [in_list|apply P; in_list|apply N|apply N|apply N].
        - apply (early_box emin prec Hprec Hemin F HA big HB "_beta" EARLY_INDEX_BETA); [in_list|apply P; in_list|apply N|apply N|apply N]. }
      destruct K as (v & E & B). rewrite E in E2. injection E2 as <-. exact B.
    - assert (K : exists v, @pred_late_index_kern xr X ix p (Fin lgm) = Ok v /\ bx v (1 / 10) (21 / 100)).
      { destruct Hix as [-> | ->].
        - apply (late_box emin prec Hprec Hemin F HA big HB "_alpha" LATE_INDEX_ALPHA); [in_list|apply P; in_list|apply N].
        - apply (late_box emin prec Hprec Hemin F HA big HB "_beta" LATE_INDEX_BETA); [in_list|apply P; in_list|apply N]. }
      destruct K as (v & E & B). rewrite E in E3. injection E3 as <-. exact B.
  Qed.

  Lemma generated : forall Tn (G : rng xr) g (p : rec xr) lgm t k lgt0 otp tp e l f tr, near_legal_pop F tol p ->
    machine F lgm -> 6 <= lgm <= 134 / 10 -> machine F t -> 0 <= t <= 15 ->
    match otp with
    | Some x => x = Fin tp
    | None => @peak_time xr X Tn g p (Fin lgm) (Fin t) lgt0 (uniform G (Split k 2 0)) = Ok (Fin tp)
    end -> machine F tp -> rd (5 / 100) <= tp <= 20 ->
    (forall k' c, all_finite (deviation G k' c)) ->
    @mc_diffmah_params_single xr X Tn G g p (Fin lgm) (Fin t) k lgt0 otp = (Ok (e, l, f), tr) ->
    (forall h, h = e \/ h = l -> exists q, h = inject q /\ machine_legal F q) /\ bx f (24 / 100) (76 / 100).
  Proof.
    intros Tn G g p lgm t k lgt0 otp tp e l f tr L Ml Hl Mt Ht Htp Mp Hp Z H.
    apply single_inv in H. destruct H as (tp' & me & ml & cov & E & Me & Mle & _ & _ & Se & Sl & Ef & _).
    assert (tp' = Fin tp) as -> by (destruct otp; [congruence|rewrite Htp in E; injection E as E; congruence]). clear E.
    assert (Hp' : 0 <= tp <= 20).
    { pose proof (rd_dlt emin prec Hprec Hemin F HA (5 / 100) ltac:(apply Rabs_le; lra)) as T. apply Rabs_le_inv in T.
      unfold dlt in T. lra. }
    split.
    - intros h Hh.
      assert (Q : exists m d, all_finite d /\ @scattered xr X m d h /\ (bx (logm0 m) 0 17 /\ bx (logtc m) (-1) 1 /\
        bx (early_index m) (49 / 100) (401 / 100) /\ bx (late_index m) (1 / 10) (21 / 100) /\ t_peak m = Fin tp)).
      { destruct Hh as [-> | ->].
        - exists me, (deviation G (Split k 2 0) cov). split; [apply Z|]. split; [exact Se|].
          unfold is_mean_early in Me. destruct g.
          + eapply mean_box; [exact L|left; reflexivity|left; reflexivity|left; reflexivity|exact Ml|exact Hl|exact Mt|exact Ht|exact Mp|exact Hp'|exact Me].
          + eapply mean_box; [exact L|right; right; left; reflexivity|left; reflexivity|left; reflexivity|exact Ml|exact Hl|exact Mt|exact Ht|exact Mp|exact Hp'|exact Me].
        - exists ml, (deviation G (Split k 2 1) cov). split; [apply Z|]. split; [exact Sl|].
          unfold is_mean_late in Mle. destruct g.
          + eapply mean_box; [exact L|right; left; reflexivity|right; reflexivity|right; reflexivity|exact Ml|exact Hl|exact Mt|exact Ht|exact Mp|exact Hp'|exact Mle].
          + eapply mean_box; [exact L|right; right; right; left; reflexivity|right; reflexivity|right; reflexivity|exact Ml|exact Hl|exact Mt|exact Ht|exact Mp|exact Hp'|exact Mle]. }
      destruct Q as (m & d & Hd & Hs & B0 & B1 & B2 & B3 & E4).
      eapply scattered_legal; [exact B0|exact B1|exact B2|exact B3|exact E4|exact Mp|exact Hp|exact Hd|exact Hs].
    - destruct (frac_box emin prec Hprec Hemin F HA big HB p (Fin lgm) (Fin t)) as (f' & Ef' & B);
        [apply near_provides; [apply incl_pop; in_list|exact L]|discriminate|discriminate|].
      rewrite Ef' in Ef. injection Ef as <-. exact B.
  Qed.

  (** ** Masses the model has no room for *)

  Lemma logm0_over sfx c0 c1 p lgm t tp : In (sfx, c0, c1) m0_populations ->
    near_legal_pop F tol p -> machine F lgm -> 172 / 10 <= lgm <= 20 -> machine F t -> 0 <= t <= 15 ->
    machine F tp -> 0 <= tp <= 20 ->
    exists v, @pred_logm0_kern xr X sfx p (Fin lgm) (Fin t) (Fin tp) = Ok v /\ bx v (1705 / 100) 30.
  Proof.
    intros Hin L Ml Hl Mt Ht Mp Hp. unfold pred_logm0_kern, TP_LGMP.
    assert (P : forall c, (c = c0 \/ c = c1) -> nprovides F c p).
    { intros c Hc. apply near_provides; [|exact L]. apply incl_pop.
      destruct Hin as [Q|[Q|[Q|[Q|[]]]]]; injection Q as <- <- <-; destruct Hc as [-> | ->]; in_list. }
    assert (Bt := box_fin F t Mt). assert (Bp := box_fin F tp Mp).
    destruct (c0_box emin prec Hprec Hemin F HA big HB _ _ _ p (Fin t) (Fin tp) _ _ _ _ Hin (P _ (or_introl eq_refl)) Bt ltac:(lra) ltac:(lra) Bp ltac:(lra) ltac:(lra))
      as (v0 & -> & B0). cbn [bind].
    destruct (c1_box emin prec Hprec Hemin F HA big HB _ _ _ p (Fin t) (Fin tp) _ _ Hin (P _ (or_intror eq_refl)) Bt ltac:(lra) ltac:(lra) ltac:(discriminate))
      as (v1 & -> & B1). cbn [bind].
    eexists. split; [reflexivity|].
    assert (Hb : bx (Fin lgm) (172 / 10) 20) by (exists lgm; split; [reflexivity | split; [exact Ml | exact Hl]]).
    assert (D : bx (@nsub xr X (Fin lgm) (@nconst xr X 12)) 5 9).
    { eapply box_weaken; [apply (box_sub emin prec Hprec Hemin F HA big HB); [exact Hb | apply (bint 12); lia | |] | |]; unfold dlt; lra. }
    assert (M : bx (@nmul xr X v1 (@nsub xr X (Fin lgm) (@nconst xr X 12))) (- (1 / 100)) 6).
    { eapply box_weaken; [apply (bmul _ _ _ _ _ _ 0 (59 / 10) B1 D); [|lra|lra] | |]; unfold dlt; try lra.
      intros r s Br Bs. split; nra. }
    assert (S2 : bx (@nadd xr X v0 (@nmul xr X v1 (@nsub xr X (Fin lgm) (@nconst xr X 12)))) (-12 / 100) 9).
    { eapply box_weaken; [apply badd; [exact B0 | exact M | |] | |]; unfold dlt; lra. }
    eapply box_weaken; [apply badd; [exact Hb | exact S2 | |] | |]; unfold dlt; lra.
  Qed.

  Lemma inverse_over : forall y x0 k, 1705 / 100 <= y <= 30 ->
    @inverse_sigmoid xr X (Fin y) x0 k (Fin 0) (Fin 17) = NaN.
  Proof.
    intros y x0 k Hy. unfold inverse_sigmoid.
    assert (RS : forall r, Rabs r <= 127 -> xround F big (Fin r) = Fin (rd r)).
    { intros r Hr. exact (const_small r Hr). }
    cbn [nsub ndiv nlog nconst Num_xfl xsub xneg xadd].
    change (17 + - 0) with (17 - 0). change (y + - 0) with (y - 0). rewrite !Rminus_0_r.
    rewrite (RS 17), (RS y), (RS 1) by (apply Rabs_le; lra). rewrite (oa_one F HF).
    rewrite (int_machine 17) by lia.
    pose proof (rd_dlt emin prec Hprec Hemin F HA y ltac:(apply Rabs_le; lra)) as T. apply Rabs_le_inv in T. unfold dlt in T.
    set (d := rd y) in *.
    assert (K : Reqb d 0 = false) by (unfold Reqb; destruct (Req_EM_T d 0); [lra | reflexivity]).
    cbn [xdiv]. rewrite K.
    assert (Q : 17 / d <= 9985 / 10000).
    { apply Rmult_le_reg_r with d; [lra|]. unfold Rdiv at 1. rewrite Rmult_assoc, Rinv_l by lra. lra. }
    assert (Q0 : 0 <= 17 / d) by (apply Rmult_le_pos; [lra | left; apply Rinv_0_lt_compat; lra]).
    rewrite (RS (17 / d)) by (apply Rabs_le; lra). cbn [xsub xneg xadd].
    pose proof (rd_dlt emin prec Hprec Hemin F HA (17 / d) ltac:(apply Rabs_le; lra)) as T2. apply Rabs_le_inv in T2. unfold dlt in T2.
    change (rd (17 / d) + -1) with (rd (17 / d) - 1). change (rd (17 / d) + Ropp 1) with (rd (17 / d) - 1).
    rewrite (RS (rd (17 / d) - 1)) by (apply Rabs_le; lra).
    pose proof (rd_dlt emin prec Hprec Hemin F HA (rd (17 / d) - 1) ltac:(apply Rabs_le; lra)) as T3. apply Rabs_le_inv in T3. unfold dlt in T3.
    set (w := rd (rd (17 / d) - 1)) in *.
    cbn [xliblog xlog_gen]. destruct (Rltb_spec 0 w) as [[_ ?] | [-> _]]; [lra|].
    unfold Reqb. destruct (Req_EM_T w 0) as [?|_]; [lra|].
    cbn [xdiv xround]. destruct x0; reflexivity.
  Qed.

  Lemma scattered_over : forall m d h, bx (logm0 m) (1705 / 100) 30 -> @scattered xr X m d h -> logm0 h = NaN.
  Proof.
    intros m d h (y & E & _ & B) (d1 & d2 & d3 & d4 & rest & -> & ->).
    unfold get_bounded_mah_params, get_early_late. cbn [logm0].
    unfold get_unbounded_mah_params, get_u_early_late. cbn [u_logm0]. rewrite E.
    unfold get_unbounded_diffmah_param, MAH_PBOUNDS. cbn [logm0].
    rewrite (const_int 0), (const_int 17) by lia. rewrite inverse_over by exact B.
    unfold get_bounded_diffmah_param, sigmoid. cbn [nadd Num_xfl xadd xround nsub xsub xneg].
    destruct bounding_k as (k & -> & _). cbn [nmul Num_xfl xmul xround nlogistic xlib xlogistic].
    assert (Z : forall a, xmul a NaN = NaN) by (intros [r| | |]; reflexivity).
    assert (Z2 : forall a, xadd a NaN = NaN) by (intros [r| | |]; reflexivity).
    destruct d1; cbn [xadd xround nsub Num_xfl xsub xneg nmul xmul nlogistic xlib xlogistic];
      rewrite Z; cbn [xround]; reflexivity.
  Qed.

  Lemma over_halos : forall Tn (G : rng xr) g (p : rec xr) lgm t k lgt0 otp tp e l f tr, near_legal_pop F tol p ->
    machine F lgm -> 172 / 10 <= lgm <= 20 -> machine F t -> 0 <= t <= 15 ->
    match otp with
    | Some x => x = Fin tp
    | None => @peak_time xr X Tn g p (Fin lgm) (Fin t) lgt0 (uniform G (Split k 2 0)) = Ok (Fin tp)
    end -> machine F tp -> 0 <= tp <= 20 ->
    @mc_diffmah_params_single xr X Tn G g p (Fin lgm) (Fin t) k lgt0 otp = (Ok (e, l, f), tr) ->
    logm0 e = NaN /\ logm0 l = NaN.
  Proof.
    intros Tn G g p lgm t k lgt0 otp tp e l f tr L Ml Hl Mt Ht Htp Mp Hp H.
    apply single_inv in H. destruct H as (tp' & me & ml & cov & E & Me & Mle & _ & _ & Se & Sl & _).
    assert (tp' = Fin tp) as -> by (destruct otp; [congruence|rewrite Htp in E; injection E as E; congruence]). clear E.
    assert (Q : forall m0 tc ix c0 c1 m d h, In (m0, c0, c1) m0_populations ->
      @is_mean xr X m0 tc ix p (Fin lgm) (Fin t) (Fin tp) m -> @scattered xr X m d h -> logm0 h = NaN).
    { intros m0 tc ix c0 c1 m d h Hm (E0 & _) S.
      destruct (logm0_over m0 c0 c1 p lgm t tp Hm L Ml Hl Mt Ht Mp Hp) as (v & E & B).
      rewrite E in E0. injection E0 as E0. rewrite E0 in B. exact (scattered_over m d h B S). }
    unfold is_mean_early in Me. unfold is_mean_late in Mle.
    split; destruct g.
    - exact (Q _ _ _ _ _ _ _ _ ltac:(left; reflexivity) Me Se).
    - exact (Q _ _ _ _ _ _ _ _ ltac:(right; right; left; reflexivity) Me Se).
    - exact (Q _ _ _ _ _ _ _ _ ltac:(right; left; reflexivity) Mle Sl).
    - exact (Q _ _ _ _ _ _ _ _ ltac:(right; right; right; left; reflexivity) Mle Sl).
  Qed.
End Halos.
