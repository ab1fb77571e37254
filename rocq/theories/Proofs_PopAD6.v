(** Dual-number differentiation of one generated halo. *)

From Coq Require Import Reals String List Bool Arith ZArith Lia Lra.
From Coquelicot Require Import Coquelicot.
From Verif Require Import Model_Num RealAux Model_Base Model_Kernels Model_Utils Model_PopBase Model_PopData
  Model_PopParams Model_PopKernels Model_PopMC Model_Grad Spec_Kernels Spec_Utils Spec_Pop Spec_PopMC Spec_TruncNorm
  Spec_Grad Proofs_Kernels Proofs_AD Proofs_PopBase Proofs_PopParams Proofs_PopAll Proofs_PopProps
  Proofs_PopInterp Proofs_PopKernels Proofs_PopCov Proofs_PopTpeak Proofs_PopMC Proofs_PopMC3 Proofs_PopAD Proofs_PopAD2
  Proofs_PopAD3 Proofs_PopAD4 Proofs_PopAD5.
Import ListNotations.
Local Open Scope R_scope.
Local Open Scope string_scope.

Lemma fst_mbind {X Y} (m : mc X) (f : X -> mc Y) : fst (mbind m f) = bind (fst m) (fun x => fst (f x)).
Proof. unfold mbind. now destruct (fst m). Qed.

Lemma rel_mbind {X XD Y YD} x (T : (R -> X) -> XD -> Prop) (T' : (R -> Y) -> YD -> Prop)
    (m : R -> mc X) (md : mc XD) (k : R -> X -> mc Y) kd r :
  fst (mbind (m x) (k x)) = Ok r ->
  (forall a, fst (m x) = Ok a -> rel T (fun y => fst (m y)) (fst md)) ->
  (forall f d, (forall y, fst (m y) = Ok (f y)) -> T f d -> fst (k x (f x)) = Ok r ->
     rel T' (fun y => fst (k y (f y))) (fst (kd d))) ->
  rel T' (fun y => fst (mbind (m y) (k y))) (fst (mbind md kd)).
Proof.
  intros H1 H2 H3. rewrite fst_mbind in H1.
  apply (rel_ext T' (fun y => bind (fst (m y)) (fun a => fst (k y a))) _ (bind (fst md) (fun a => fst (kd a)))).
  - intros y. now rewrite fst_mbind.
  - now rewrite fst_mbind.
  - exact (rel_bind x T T' (fun y => fst (m y)) (fst md) (fun y a => fst (k y a)) (fun a => fst (kd a)) r H1 H2 H3).
Qed.

(** The mean parameters of the two populations, as one function. *)
Section Mean.
  Context {A : Type} {N : Num A} (F : A -> A -> A -> A -> A -> A).

  Definition mean_pure (pop ix : string) (g : galaxy) (params : rec A) (lgm_obs t_obs lgt0 u : A)
    : res (DiffmahParams A) :=
    let* models := get_component_model_params params in
    let* (tpc, tps, m0, m0s, tc, ei, li, fec, cov) := unpack9 models in
    let* t_peak := match g with
                   | Cen => tpeak_cen_of_uran tpc lgm_obs t_obs (npow10 lgt0) u
                   | Sat => tpeak_sat_of_uran F tps lgm_obs t_obs u
                   end in
    let* logm0 := pred_logm0_kern (sfx_of g pop) (logm0_of g m0 m0s) lgm_obs t_obs t_peak in
    let* logtc := pred_logtc_kern pop tc lgm_obs t_obs t_peak in
    let* early_index := pred_early_index_kern ix ei lgm_obs t_obs t_peak in
    let* late_index := pred_late_index_kern ix li lgm_obs in
    Ok (mkParams logm0 logtc early_index late_index t_peak).

  Context (G : rng A).

  Ltac step := match goal with
    | |- context [mbind (mlift ?m) _] => destruct m eqn:?; cbn [mlift fst snd bind mbind]; [|reflexivity]
    end.

  Lemma mean_early_pure g params m t k lgt0 :
    fst (mean_diffmah_params_early F G g params m t k lgt0)
    = mean_pure "_early" "_alpha" g params m t lgt0 (uniform G (Split k 2 0)).
  Proof.
    unfold mean_diffmah_params_early, mean_pure. rewrite fst_mbind. cbn [fst mlift].
    destruct (get_component_model_params params) as [l|e]; [|reflexivity]. cbn [bind].
    rewrite fst_mbind. cbn [fst mlift]. destruct (unpack9 l) as [[[[[[[[[a b] c] d] e] f] h] i] j]|er]; [|reflexivity].
    cbn [bind]. rewrite fst_mbind.
    destruct g; unfold mc_tpeak_singlecen, mc_tpeak_singlesat; rewrite fst_mbind; cbn [fst draw_uniform bind mlift].
    - destruct (tpeak_cen_of_uran _ _ _ _ _) as [tp|]; [|reflexivity]. cbn [bind].
      rewrite fst_mbind; cbn [fst mlift]. destruct (pred_logm0_kern _ _ _ _ _); [|reflexivity]. cbn [bind].
      rewrite fst_mbind; cbn [fst mlift]. destruct (pred_logtc_kern _ _ _ _ _); [|reflexivity]. cbn [bind].
      rewrite fst_mbind; cbn [fst mlift]. destruct (pred_early_index_kern _ _ _ _ _); [|reflexivity]. cbn [bind].
      rewrite fst_mbind; cbn [fst mlift]. destruct (pred_late_index_kern _ _ _); reflexivity.
    - destruct (tpeak_sat_of_uran _ _ _ _ _) as [tp|]; [|reflexivity]. cbn [bind].
      rewrite fst_mbind; cbn [fst mlift]. destruct (pred_logm0_kern _ _ _ _ _); [|reflexivity]. cbn [bind].
      rewrite fst_mbind; cbn [fst mlift]. destruct (pred_logtc_kern _ _ _ _ _); [|reflexivity]. cbn [bind].
      rewrite fst_mbind; cbn [fst mlift]. destruct (pred_early_index_kern _ _ _ _ _); [|reflexivity]. cbn [bind].
      rewrite fst_mbind; cbn [fst mlift]. destruct (pred_late_index_kern _ _ _); reflexivity.
  Qed.

  Lemma mean_late_pure g params m t k lgt0 :
    fst (mean_diffmah_params_late F G g params m t k lgt0)
    = mean_pure "_late" "_beta" g params m t lgt0 (uniform G (Split k 2 0)).
  Proof.
    unfold mean_diffmah_params_late, mean_pure. rewrite fst_mbind. cbn [fst mlift].
    destruct (get_component_model_params params) as [l|e]; [|reflexivity]. cbn [bind].
    rewrite fst_mbind. cbn [fst mlift]. destruct (unpack9 l) as [[[[[[[[[a b] c] d] e] f] h] i] j]|er]; [|reflexivity].
    cbn [bind]. rewrite fst_mbind.
    destruct g; unfold mc_tpeak_singlecen, mc_tpeak_singlesat; rewrite fst_mbind; cbn [fst draw_uniform bind mlift].
    - destruct (tpeak_cen_of_uran _ _ _ _ _) as [tp|]; [|reflexivity]. cbn [bind].
      rewrite fst_mbind; cbn [fst mlift]. destruct (pred_logm0_kern _ _ _ _ _); [|reflexivity]. cbn [bind].
      rewrite fst_mbind; cbn [fst mlift]. destruct (pred_logtc_kern _ _ _ _ _); [|reflexivity]. cbn [bind].
      rewrite fst_mbind; cbn [fst mlift]. destruct (pred_early_index_kern _ _ _ _ _); [|reflexivity]. cbn [bind].
      rewrite fst_mbind; cbn [fst mlift]. destruct (pred_late_index_kern _ _ _); reflexivity.
    - destruct (tpeak_sat_of_uran _ _ _ _ _) as [tp|]; [|reflexivity]. cbn [bind].
      rewrite fst_mbind; cbn [fst mlift]. destruct (pred_logm0_kern _ _ _ _ _); [|reflexivity]. cbn [bind].
      rewrite fst_mbind; cbn [fst mlift]. destruct (pred_logtc_kern _ _ _ _ _); [|reflexivity]. cbn [bind].
      rewrite fst_mbind; cbn [fst mlift]. destruct (pred_early_index_kern _ _ _ _ _); [|reflexivity]. cbn [bind].
      rewrite fst_mbind; cbn [fst mlift]. destruct (pred_late_index_kern _ _ _); reflexivity.
  Qed.
End Mean.

(** ** The peak time *)

Section Reads.
  Variables (q p : rec R).
  Hypothesis H : reads q p.
  Lemma r_frac l lgm t v : frac_peaked_vs_lgm q l lgm t = Ok v -> frac_peaked_vs_lgm p l lgm t = Ok v.
  Proof. unfold frac_peaked_vs_lgm, get_utp_x0_from_lgm. kmono H. trivial. Qed.
  Lemma r_loc lgm t v : get_utp_loc q lgm t = Ok v -> get_utp_loc p lgm t = Ok v.
  Proof. unfold get_utp_loc, get_utp_loc_lgm_ylo. kmono H. trivial. Qed.
  Lemma r_scale lgm t v : get_utp_scale q lgm t = Ok v -> get_utp_scale p lgm t = Ok v.
  Proof. unfold get_utp_scale, get_utp_scale_lgm_ylo. kmono H. trivial. Qed.
End Reads.

(** A peak time with its derivative, constant near [x] if it is a tabulated time. *)
Definition tpt (x : R) (tarr : list R) (f : R -> R) (d : Dual R) : Prop :=
  tracks f x d /\ forall s, In s tarr -> s = f x -> locally x (fun y => f y = f x).

Section Halo.
  Context (F : Dual R -> Dual R -> Dual R -> Dual R -> Dual R -> Dual R) (HF : exact_truncnorm F).
  Context (x : R) (fm ft : R -> R) (dm dt : Dual R) (Hm : tracks fm x dm) (Ht : tracks ft x dt).
  Context (tarr : list R) (lgt0 u : R).

  Lemma rel_peak g Qc Dc Qs Ds p :
    rt x Qc Dc -> rt x Qs Ds -> reads (Qc x) p -> reads (Qs x) p ->
    provides TPCENS_FLEX (Qc x) -> provides TP_SATS (Qs x) ->
    draw_off_knots g p tarr (fm x) (ft x) lgt0 u ->
    rel (fun f d => tpt x tarr f d /\ peak_time truncnorm_cdf_R g p (fm x) (ft x) lgt0 u = Ok (f x))
      (fun y => match g with
                | Cen => tpeak_cen_of_uran (Qc y) (fm y) (ft y) (npow10 lgt0) (nconst u)
                | Sat => tpeak_sat_of_uran truncnorm_cdf_R (Qs y) (fm y) (ft y) (nconst u)
                end)
      (match g with
       | Cen => tpeak_cen_of_uran Dc dm dt (npow10 (dlift lgt0)) (nconst u)
       | Sat => tpeak_sat_of_uran F Ds dm dt (nconst u)
       end).
  Proof.
    intros Hc Hs Rc Rs Pc Ps HD. destruct g.
    - cbn [draw_off_knots] in HD.
      destruct (utp_of_uran_eval (Qc x) (fm x) (ft x) Pc) as (x0 & EU). destruct (EU u) as [EU1 EU2].
      pose proof (EU2 UTP_TABLE) as ET. set (tab := map (FP x0) UTP_TABLE) in *.
      destruct (HD tab (r_frac _ _ Rc _ _ _ _ ET)) as (N1 & N2 & N3).
      eapply rel_imp'; [|eapply (rel_tpeak_cen x Qc Dc fm ft dm dt lgt0 u Pc Hc Hm Ht)].
      + intros f d Hf [T1 T2]. destruct (T2 tab ET) as [E1 E2]. split; [split; [exact T1|]|].
        * intros s Hs' Es. apply E2. destruct (N3 s Hs' ltac:(rewrite Es; exact E1)) as [C|[C|C]]; unfold pinned; auto.
        * cbn [peak_time]. apply (r_tpc _ _ Rc). apply (Hf x).
      + intros tb Etb. rewrite ET in Etb. injection Etb as <-. now split.
    - cbn [draw_off_knots] in HD.
      eapply rel_imp'; [|eapply (rel_tpeak_sat F HF x Qs Ds fm ft dm dt u Ps Hs Hm Ht)].
      + intros f d Hf T1. assert (EP : tpeak_sat_of_uran truncnorm_cdf_R p (fm x) (ft x) u = Ok (f x))
          by (apply (r_tps _ _ Rs); apply (Hf x)).
        split; [split; [exact T1|]|exact EP].
        intros s Hs' Es. exfalso.
        destruct (sat_loc_scale (Qs x) (fm x) (ft x) Ps) as (loc & sc & EL & ES & _).
        destruct (HD loc sc (r_loc _ _ Rs _ _ _ EL) (r_scale _ _ Rs _ _ _ ES)) as (_ & _ & _ & N4).
        apply (N4 s Hs'). now rewrite Es.
      + intros loc sc EL ES.
        destruct (HD loc sc (r_loc _ _ Rs _ _ _ EL) (r_scale _ _ Rs _ _ _ ES)) as (N1 & N2 & N3 & _).
        refine (conj N1 (conj N2 _)). exact N3.
  Qed.

  Definition pmt (f : R -> DiffmahParams R) (d : DiffmahParams (Dual R)) : Prop :=
    tracks_params f x d /\ legal (f x) /\
    (forall s, In s tarr -> s = t_peak (f x) -> locally x (fun y => t_peak (f y) = t_peak (f x))).

  Lemma rel_mean g pop ix P D : In (pop, ix) [("_early", "_alpha"); ("_late", "_beta")] ->
    rt x P D -> legal_pop (P x) ->
    draw_off_knots g (P x) tarr (fm x) (ft x) lgt0 u ->
    (forall tp, peak_time truncnorm_cdf_R g (P x) (fm x) (ft x) lgt0 u = Ok tp ->
       5/100 < tp < 20 /\ mean_off_clips (m0_suffix g pop) pop ix (P x) (fm x) (ft x) tp) ->
    rel pmt (fun y => mean_pure truncnorm_cdf_R pop ix g (P y) (fm y) (ft y) lgt0 (nconst u))
      (mean_pure F pop ix g D dm dt (dlift lgt0) (nconst u)).
  Proof.
    intros Hpop HP HL HD HM. unfold mean_pure.
    destruct (legal_components (P x) HL) as (qa & qb & qc & qd & qe & qf & qh & qi & qj & EQ & Pa & Pb & Pc & Pd & Pe & Pf & Ph).
    pose proof (components_read _ _ EQ) as RQ.
    destruct (rel_components x P D _ EQ HP) as (fl & dl & EF & ED & (L & EL & FL)).
    assert (EX : fl x = [qa; qb; qc; qd; qe; qf; qh; qi; qj]) by (rewrite EF in EQ; now injection EQ).
    rewrite ED. cbn [bind].
    rewrite EL in EX.
    do 9 (destruct L as [|? L]; [discriminate EX|]). destruct L; [|discriminate EX].
    cbn [map] in EX. injection EX as E1 E2 E3 E4 E5 E6 E7 E8 E9.
    repeat match goal with FL : Forall2 _ (_ :: _) _ |- _ => inversion FL; clear FL; subst end.
    match goal with FL : Forall2 _ [] _ |- _ => inversion FL; clear FL; subst end.
    do 9 (let R' := fresh "RD" in apply Forall_inv in RQ as R'; apply Forall_inv_tail in RQ). clear RQ.
    cbn [unpack9 bind].
    match goal with
    | H1 : rt x ?la _, H2 : rt x ?lb _, H3 : rt x ?lc _, H4 : rt x ?ld _, H5 : rt x ?le _, H6 : rt x ?lf _,
      H7 : rt x ?lh _, Ex : forall y, fl y = map (fun f => f y) [?la; ?lb; ?lc; ?ld; ?le; ?lf; ?lh; _; _] |- _ =>
        rename H1 into Ta, H2 into Tb, H3 into Tc, H4 into Td, H5 into Te, H6 into Tf, H7 into Th;
        rename la into fa, lb into fb, lc into fc, ld into fd, le into fe, lf into ff, lh into fh
    end.
    destruct (rel_peak g fa _ fb _ (P x) Ta Tb RD RD0 Pa Pb HD) as (ftp & dtp & ETP & EDP & (TT & CT) & EPK).
    destruct (HM (ftp x) EPK) as (Btp & (C1 & C2 & C3 & C4 & C5 & C6)).
    assert (KS : exists v0 v1 v2 v3,
       pred_logm0_kern (sfx_of g pop) (logm0_of g (fc x) (fd x)) (fm x) (ft x) (ftp x) = Ok v0 /\
       pred_logtc_kern pop (fe x) (fm x) (ft x) (ftp x) = Ok v1 /\ pred_early_index_kern ix (ff x) (fm x) (ft x) (ftp x) = Ok v2 /\
       pred_late_index_kern ix (fh x) (fm x) = Ok v3 /\ -(999/1000) <= v1 <= 999/1000 /\ 5/10 < v2 < 4 /\ 101/1000 <= v3 < 2/10).
    { destruct (mean_kernels_ok g _ _ _ _ _ (fm x) (ft x) (ftp x) Pc Pd Pe Pf Ph) as [K1 K2].
      destruct Hpop as [E|[E|[]]]; injection E as <- <-.
      - destruct K1 as (v0 & _ & _ & _ & E0 & _).
        destruct (logtc_range "_early" LOGTC_EARLY (fe x) (fm x) (ft x) (ftp x)) as (v1 & E1 & B1); [in_list|part cat_LOGTC_BIMOD Pe|].
        destruct (early_index_range "_alpha" EARLY_INDEX_ALPHA (ff x) (fm x) (ft x) (ftp x)) as (v2 & E2 & B2); [in_list|part cat_EARLY_INDEX_BIMOD Pf|].
        destruct (late_index_range "_alpha" LATE_INDEX_ALPHA (fh x) (fm x)) as (v3 & E3 & B3); [in_list|part cat_LATE_INDEX_BIMOD Ph|].
        exists v0, v1, v2, v3. auto 10.
      - destruct K2 as (v0 & _ & _ & _ & E0 & _).
        destruct (logtc_range "_late" LOGTC_LATE (fe x) (fm x) (ft x) (ftp x)) as (v1 & E1 & B1); [in_list|part cat_LOGTC_BIMOD Pe|].
        destruct (early_index_range "_beta" EARLY_INDEX_BETA (ff x) (fm x) (ft x) (ftp x)) as (v2 & E2 & B2); [in_list|part cat_EARLY_INDEX_BIMOD Pf|].
        destruct (late_index_range "_beta" LATE_INDEX_BETA (fh x) (fm x)) as (v3 & E3 & B3); [in_list|part cat_LATE_INDEX_BIMOD Ph|].
        exists v0, v1, v2, v3. auto 10. }
    destruct KS as (v0 & v1 & v2 & v3 & K0 & K1 & K2 & K3 & B1 & B2 & B3).
    assert (RM : reads (logm0_of g (fc x) (fd x)) (P x)) by (destruct g; assumption).
    assert (TM : rt x (fun y => logm0_of g (fc y) (fd y)) (logm0_of g y1 y2)) by (destruct g; assumption).
    assert (ESF : sfx_of g pop = m0_suffix g pop) by (destruct g; reflexivity).
    rewrite <- ESF in *.
    destruct (rel_logm0 x _ _ TM _ RM fm ft ftp dm dt dtp Hm Ht TT (sfx_of g pop) v0 K0 C4 C5) as (g0 & e0 & G0 & D0 & T0).
    destruct (rel_logtc x _ _ Te _ RD3 fm ft ftp dm dt dtp Hm Ht TT pop v1 K1 C1 C2) as (g1 & e1 & G1 & D1 & T1).
    destruct (rel_early x _ _ Tf _ RD4 fm ft ftp dm dt dtp Hm Ht TT ix v2 K2 B2) as (g2 & e2 & G2 & D2 & T2).
    assert (C3' : raw_late ix (P x) (fm x) <> 4999/1000).
    { intros E. pose proof (r_late _ _ RD5 _ _ _ K3) as KP. revert KP. unfold pred_late_index_kern.
      unfold raw_late, val in E.
      destruct (getattr (P x) ("late_index_x0" ++ ix)) as [w1|]; [|discriminate]. cbn [bind].
      destruct (getattr (P x) ("late_index_ylo" ++ ix)) as [w2|]; [|discriminate]. cbn [bind].
      destruct (getattr (P x) ("late_index_yhi" ++ ix)) as [w3|]; [|discriminate]. cbn [bind].
      cbn [MAH_PBOUNDS late_index]. intros KP. injection KP as KP. revert KP.
      rewrite clip_R. unfold EPS_INDEX, LATE_INDEX_K in *. unfold sigmoid in E. cbn [nconst Num_R nadd nsub nmul nlogistic] in *. cbv zeta in *. rewrite E. unfold Rmin, Rmax. repeat destruct Rle_dec; lra. }
    destruct (rel_late x _ _ Th _ RD5 fm dm Hm ix v3 K3 C3 C3') as (g3 & e3 & G3 & D3 & T3).
    exists (fun y => mkParams (g0 y) (g1 y) (g2 y) (g3 y) (ftp y)), (mkParams e0 e1 e2 e3 dtp).
    split; [|split].
    - intros z. rewrite EF. cbn [bind]. rewrite EL. cbn [map unpack9 bind].
      rewrite ETP. cbn [bind]. rewrite G0. cbn [bind]. rewrite G1. cbn [bind]. rewrite G2. cbn [bind]. rewrite G3. reflexivity.
    - rewrite EDP. cbn [bind]. rewrite D0. cbn [bind]. rewrite D1. cbn [bind]. rewrite D2. cbn [bind]. rewrite D3. reflexivity.
    - split; [|split].
      + unfold tracks_params. cbn. auto.
      + rewrite G0 in K0. rewrite G1 in K1. rewrite G2 in K2. rewrite G3 in K3.
        injection K0 as K0. injection K1 as K1. injection K2 as K2. injection K3 as K3.
        unfold legal. cbn. rewrite K0, K1, K2, K3.
        assert (0 < v0 < 17) by (apply C6; apply (r_logm0 _ _ RM); rewrite G0; now f_equal).
        lra.
      + cbn. exact CT.
  Qed.
End Halo.
