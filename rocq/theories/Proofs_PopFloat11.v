(** Peak times of satellites drawn in machine arithmetic. *)

From Coq Require Import Reals ZArith String List Bool Arith Lra Lia Sorting.Sorted.
From Flocq Require Import Core.
From Verif Require Import Model_Num Model_Kernels Model_Base Model_Utils Model_PopBase Model_PopData
  Model_PopParams Model_PopKernels Model_PopMC Model_Float Spec_Kernels Spec_Pop Spec_PopMC Spec_Float Spec_PopFloat
  RealAux Proofs_Float Proofs_Float2 Proofs_Float3 Proofs_Float4 Proofs_Float5 Proofs_PopBase Proofs_PopAll
  Proofs_PopInterp Proofs_PopKernels Proofs_PopCov Proofs_PopFloat2 Proofs_PopFloat6 Proofs_PopFloat7 Proofs_PopFloat8
  Proofs_PopFloat9.
Import ListNotations.
Local Open Scope R_scope.
Local Open Scope string_scope.

Section SatPeak.
  Variables emin prec : Z.
  Hypothesis Hprec : (20 <= prec)%Z.
  Hypothesis Hemin : (emin <= - prec - 100)%Z.
  Variable F : arith.
  Hypothesis HA : faithful emin prec F.
  Variable big : R.
  Hypothesis HB : bpow radix2 120 <= big.

  Local Notation X := (Num_xfl F big).
  Local Notation rd := (rnd F).
  Local Notation bx := (box F).
  Let HF := fa_ordered _ _ _ HA.
  Let bconst := box_const emin prec Hprec Hemin F HA big HB.
  Let badd := box_add emin prec Hprec Hemin F HA big HB.
  Let bsub := box_sub emin prec Hprec Hemin F HA big HB.
  Let bmul := box_mul emin prec Hprec Hemin F HA big HB.
  Let bsig := box_sigmoid emin prec Hprec Hemin F HA big HB.
  Let bint := bconst_int emin prec Hprec Hemin F HA big HB.
  Let cint := const_int emin prec Hprec Hemin F HA big HB.
  Let csmall := const_small emin prec Hprec Hemin F HA big HB.
  Let rsmall := round_small emin prec Hprec Hemin F HA big HB.
  Let rdd := rd_dlt emin prec Hprec Hemin F HA.

  Local Tactic Notation "nf" hyp(H) constr(k) ident(v) ident(E) ident(B) :=
    destruct (nfield F _ _ k _ _ H ltac:(in_list)) as (v & E & B); try rewrite E; cbn [bind].

  Lemma const_range : forall r, Rabs r <= 127 -> bx (@nconst xr X r) (r - dlt) (r + dlt).
  Proof. exact bconst. Qed.

  (** ** Location and width *)

  Lemma loc_box : forall p lgm t, nprovides F TP_SATS p -> lgm <> NaN -> t <> NaN ->
    exists v, @get_utp_loc xr X p lgm t = Ok v /\ bx v (148 / 1000) (952 / 1000).
  Proof.
    intros p lgm t H Hl Ht. unfold get_utp_loc, get_utp_loc_lgm_ylo, UTP_LOC_TOBS_K, UTP_LOC_LGM_K, UTP_LOC_LGM_YHI.
    nf H "utp_loc_lgm_ylo_t0" a Ea Ba. nf H "utp_loc_lgm_ylo_early" b Eb Bb. nf H "utp_loc_lgm_ylo_late" c Ec Bc.
    nf H "utp_loc_lgm_x0" d Ed Bd.
    eexists. split; [reflexivity|].
    assert (S : bx (@sigmoid xr X t a (@nconst xr X (4 / 10)) b c) (15 / 100 - tol - 3 * dlt) (8 / 10 + tol + 3 * dlt)).
    { eapply bsig; [exact Ht|exact Ba|apply (const_range (4 / 10)); apply Rabs_le; lra| |exact Bb|exact Bc| | | | | |]; unfold tol, dlt; lra. }
    eapply box_weaken; [eapply (bsig _ _ _ _ _ _ _ _ _ _ _ _ _ (15 / 100 - tol - 3 * dlt) (95 / 100 + dlt));
      [exact Hl|exact Bd|apply (const_range (15 / 10)); apply Rabs_le; lra| |exact S|apply (const_range (95 / 100)); apply Rabs_le; lra| | | | | |]| |];
      unfold tol, dlt; lra.
  Qed.

  Lemma scale_box : forall p lgm t, nprovides F TP_SATS p -> lgm <> NaN -> t <> NaN ->
    exists v, @get_utp_scale xr X p lgm t = Ok v /\ bx v (98 / 1000) (602 / 1000).
  Proof.
    intros p lgm t H Hl Ht. unfold get_utp_scale, get_utp_scale_lgm_ylo, UTP_SCALE_TOBS_K, UTP_SCALE_LGM_K, UTP_SCALE_LGM_X0, UTP_SCALE_LGM_YHI.
    nf H "utp_scale_lgm_ylo_t0" a Ea Ba. nf H "utp_scale_lgm_ylo_early" b Eb Bb. nf H "utp_scale_lgm_ylo_late" c Ec Bc.
    eexists. split; [reflexivity|].
    assert (S : bx (@sigmoid xr X t a (@nconst xr X 1) b c) (1 / 10 - tol - 3 * dlt) (6 / 10 + tol + 3 * dlt)).
    { eapply bsig; [exact Ht|exact Ba|apply (bint 1); lia| |exact Bb|exact Bc| | | | | |]; unfold tol, dlt; lra. }
    eapply box_weaken; [eapply (bsig _ _ _ _ _ _ _ _ _ _ _ _ _ (1 / 10 - tol - 3 * dlt) (6 / 10 + tol + 3 * dlt));
      [exact Hl|apply (bint 12); lia|apply (bint 1); lia| |exact S|apply (const_range (16 / 100)); apply Rabs_le; lra| | | | | |]| |];
      unfold tol, dlt; lra.
  Qed.

  (** ** The table of times *)

  (** One entry: between the ends [p] and [q], up to six roundings. *)
  Lemma entry : forall p q i, 0 <= p <= 1 -> 0 <= q <= 1 -> (i < 50)%nat ->
    exists x, (let s := @nconst xr X (INR i / INR (50 - 1)) in
      @nadd xr X (@nmul xr X (Fin p) (@nsub xr X (@nconst xr X 1) s)) (@nmul xr X (Fin q) s)) = Fin x /\ machine F x /\
      Rabs (x - (p + (q - p) * (INR i / 49))) <= 6 * dlt.
  Proof.
    intros p q i Bp Bq Hi. cbv zeta. replace (INR (50 - 1)) with 49 by (cbn; lra).
    assert (B : 0 <= INR i / 49 <= 1).
    { pose proof (pos_INR i). assert (INR i <= 49) by (replace 49 with (INR 49) by (cbn; lra); apply le_INR; lia). lra. }
    set (y := INR i / 49) in *.
    rewrite (csmall y) by (apply Rabs_le; lra). rewrite (cint 1) by lia.
    pose proof (rdd y ltac:(apply Rabs_le; lra)) as T1. apply Rabs_le_inv in T1. unfold dlt in *.
    assert (Bs : 0 <= rd y <= 1).
    { split; [apply (rd_nonneg F HF); lra | apply (rd_le F HF); [apply (oa_one F HF) | lra]]. }
    set (s := rd y) in *.
    cbn [nsub nmul nadd Num_xfl xsub xneg xadd xmul].
    rewrite (rsmall (1 + - s)) by (apply Rabs_le; lra). cbn [xmul].
    pose proof (rdd (1 + - s) ltac:(apply Rabs_le; lra)) as T2. apply Rabs_le_inv in T2. unfold dlt in T2.
    assert (Bw : 0 <= rd (1 + - s) <= 1).
    { split; [apply (rd_nonneg F HF); lra | apply (rd_le F HF); [apply (oa_one F HF) | lra]]. }
    set (w := rd (1 + - s)) in *.
    assert (0 <= p * w <= 1) by nra. assert (0 <= q * s <= 1) by nra.
    rewrite (rsmall (p * w)), (rsmall (q * s)) by (apply Rabs_le; lra). cbn [xadd].
    pose proof (rdd (p * w) ltac:(apply Rabs_le; lra)) as T3. apply Rabs_le_inv in T3. unfold dlt in T3.
    pose proof (rdd (q * s) ltac:(apply Rabs_le; lra)) as T4. apply Rabs_le_inv in T4. unfold dlt in T4.
    rewrite rsmall by (apply Rabs_le; lra).
    pose proof (rdd (rd (p * w) + rd (q * s)) ltac:(apply Rabs_le; lra)) as T5. apply Rabs_le_inv in T5. unfold dlt in T5.
    eexists. split; [reflexivity|]. split; [apply (oa_idem F HF)|].
    assert (Q1 : - (2 / 5000) <= p * w - p * (1 - y) <= 2 / 5000) by nra.
    assert (Q2 : - (1 / 5000) <= q * s - q * y <= 1 / 5000) by nra.
    apply Rabs_le. replace (p + (q - p) * y) with (p * (1 - y) + q * y) by ring. lra.
  Qed.

  (** The table is finite and increasing when the ends are well apart. *)
  Lemma sat_table : forall p q, 0 <= p -> q <= 1 -> p + 4 / 10 <= q ->
    exists tab, @linspace xr X (Fin p) (Fin q) 50 = map Fin tab /\ List.length tab = 50%nat /\ sorted tab /\
      forall x, In x tab -> machine F x /\ p - 6 * dlt <= x <= q + 6 * dlt.
  Proof.
    intros p q Hp Hq Hg.
    pose (f := fun i => match (let s := @nconst xr X (INR i / INR (50 - 1)) in
      @nadd xr X (@nmul xr X (Fin p) (@nsub xr X (@nconst xr X 1) s)) (@nmul xr X (Fin q) s)) with Fin x => x | _ => 0 end).
    assert (E : forall i, (i < 50)%nat -> (let s := @nconst xr X (INR i / INR (50 - 1)) in
      @nadd xr X (@nmul xr X (Fin p) (@nsub xr X (@nconst xr X 1) s)) (@nmul xr X (Fin q) s)) = Fin (f i) /\
      machine F (f i) /\ Rabs (f i - (p + (q - p) * (INR i / 49))) <= 6 * dlt).
    { intros i Hi. destruct (entry p q i ltac:(lra) ltac:(lra) Hi) as (x & Ex & Mx & Bx).
      assert (f i = x) as -> by (unfold f; cbv zeta in Ex |- *; rewrite Ex; reflexivity). auto. }
    clearbody f. exists (map f (seq 0 50)).
    assert (G : forall i, (i < 50)%nat -> 0 <= INR i <= 49).
    { intros i Hi. split; [apply pos_INR|]. replace 49 with (INR 49) by (cbn; lra). apply le_INR. lia. }
    split; [|split; [|split]].
    - unfold linspace. rewrite map_map. apply map_ext_in. intros i Hi. apply in_seq in Hi. apply E. lia.
    - now rewrite map_length, seq_length.
    - assert (S : forall n m, (m + n <= 50)%nat -> sorted (map f (seq m n))).
      { intros n. induction n as [|n IH]; intros m Hm; cbn [seq map]; [constructor|]. constructor; [apply IH; lia|].
        apply List.Forall_forall. intros x Hx. apply in_map_iff in Hx as (j & <- & Hj). apply in_seq in Hj.
        destruct (E m ltac:(lia)) as (_ & _ & A1). destruct (E j ltac:(lia)) as (_ & _ & A2).
        apply Rabs_le_inv in A1, A2. unfold dlt in A1, A2.
        assert (INR m + 1 <= INR j) by (rewrite <- S_INR; apply le_INR; lia).
        assert ((q - p) * (INR m / 49) + 4 / 490 <= (q - p) * (INR j / 49)).
        { assert (1 / 49 <= INR j / 49 - INR m / 49) by lra. nra. }
        lra. }
      apply S. lia.
    - intros x Hx. apply in_map_iff in Hx as (i & <- & Hi). apply in_seq in Hi.
      destruct (E i ltac:(lia)) as (_ & M & A1). split; [exact M|]. apply Rabs_le_inv in A1.
      pose proof (G i ltac:(lia)). assert (0 <= INR i / 49 <= 1) by lra. split; nra.
  Qed.

  (** ** The draw *)

  Lemma utp_sat_box : forall Tn loc scale r, machine_cdf Tn -> bx loc (148 / 1000) (952 / 1000) ->
    bx scale (98 / 1000) (602 / 1000) ->
    bx (@utp_sat_of_uran xr X Tn (loc, scale) (Fin r)) (97 / 1000) (1002 / 1000).
  Proof.
    intros Tn loc scale r HT (lo & -> & Mlo & Blo) (sc & -> & Msc & Bsc). unfold utp_sat_of_uran, NPTS_CDF_TABLE.
    assert (Bl := box_fin F lo Mlo). assert (Bs := box_fin F sc Msc).
    assert (P4 : bx (@nmul xr X (@nconst xr X 4) (Fin sc)) (4 * sc - dlt) (4 * sc + dlt)).
    { apply (bmul _ _ 4 4 sc sc); [apply (bint 4); lia|exact Bs| | |]; try lra. intros a b A1 A2. split; nra. }
    unfold dlt in P4.
    assert (Xm : bx (@nadd xr X (@X_MIN xr X) (@UTP_EPS xr X)) (99 / 1000) (101 / 1000)).
    { unfold X_MIN, UTP_EPS. eapply box_weaken; [apply badd; [apply (const_range (1 / 10)); apply Rabs_le; lra
        |apply (const_range (1 / 10000)); apply Rabs_le; lra| |]| |]; unfold dlt; lra. }
    assert (XM : bx (@nsub xr X (@X_MAX xr X) (@UTP_EPS xr X)) (999 / 1000) 1).
    { unfold X_MAX, UTP_EPS. rewrite (cint 1) by lia. rewrite (csmall (1 / 10000)) by (apply Rabs_le; lra).
      cbn [nsub Num_xfl xsub xneg xadd].
      assert (0 <= rd (1 / 10000)) by (apply (rd_nonneg F HF); lra).
      pose proof (rdd (1 / 10000) ltac:(apply Rabs_le; lra)) as T1. apply Rabs_le_inv in T1. unfold dlt in T1.
      rewrite rsmall by (apply Rabs_le; lra).
      pose proof (rdd (1 + - rd (1 / 10000)) ltac:(apply Rabs_le; lra)) as T2. apply Rabs_le_inv in T2. unfold dlt in T2.
      exists (rd (1 + - rd (1 / 10000))). split; [reflexivity|]. split; [apply (oa_idem F HF)|].
      split; [lra|]. apply (rd_le F HF); [apply (oa_one F HF)|lra]. }
    assert (L1 : bx (@nsub xr X (Fin lo) (@nmul xr X (@nconst xr X 4) (Fin sc))) (lo - 4 * sc - 2 / 5000) (lo - 4 * sc + 2 / 5000)).
    { eapply box_weaken; [apply bsub; [exact Bl|exact P4| |]| |]; unfold dlt; lra. }
    assert (L2 : bx (@nadd xr X (Fin lo) (@nmul xr X (@nconst xr X 4) (Fin sc))) (lo + 4 * sc - 2 / 5000) (lo + 4 * sc + 2 / 5000)).
    { eapply box_weaken; [apply badd; [exact Bl|exact P4| |]| |]; unfold dlt; lra. }
    destruct L1 as (a & -> & Ma & Ba). destruct L2 as (b & -> & Mb & Bb).
    destruct Xm as (c & -> & Mc & Bc). destruct XM as (d & -> & Md & Bd).
    rewrite (xmaximum_R F big), (xminimum_R F big).
    assert (Hp : 99 / 1000 <= Rmax a c) by (apply Rle_trans with c; [lra|apply Rmax_r]).
    assert (Hq : Rmin b d <= 1) by (apply Rle_trans with d; [apply Rmin_r|lra]).
    assert (Hg : Rmax a c + 4 / 10 <= Rmin b d).
    { apply Rmin_glb; [|]; unfold Rmax; destruct (Rle_dec a c); lra. }
    destruct (sat_table (Rmax a c) (Rmin b d) ltac:(lra) Hq Hg) as (tab & -> & Len & St & Rt).
    assert (BX : @tp_cdf_kern xr X Tn = fun x ps => let '(a, b, loc, scale) := @get_a_b_loc_scale xr X ps (@X_MIN xr X) (@X_MAX xr X) in Tn x a b loc scale)
      by reflexivity.
    assert (AB : exists a' b', @get_a_b_loc_scale xr X (Fin lo, Fin sc) (@X_MIN xr X) (@X_MAX xr X) = (Fin a', Fin b', Fin lo, Fin sc) /\ a' < b').
    { unfold get_a_b_loc_scale, X_MIN, X_MAX. rewrite (cint 1) by lia. rewrite (csmall (1 / 10)) by (apply Rabs_le; lra).
      pose proof (rdd (1 / 10) ltac:(apply Rabs_le; lra)) as T1. apply Rabs_le_inv in T1. unfold dlt in T1.
      cbn [nsub Num_xfl xsub xneg xadd]. rewrite !rsmall by (apply Rabs_le; lra).
      pose proof (rdd (rd (1 / 10) + - lo) ltac:(apply Rabs_le; lra)) as T2. apply Rabs_le_inv in T2. unfold dlt in T2.
      pose proof (rdd (1 + - lo) ltac:(apply Rabs_le; lra)) as T3. apply Rabs_le_inv in T3. unfold dlt in T3.
      set (u := rd (rd (1 / 10) + - lo)) in *. set (v := rd (1 + - lo)) in *.
      assert (K : Reqb sc 0 = false) by (unfold Reqb; destruct (Req_EM_T sc 0); [lra | reflexivity]).
      cbn [ndiv Num_xfl xdiv]. rewrite K.
      assert (I : 1 <= / sc <= 11).
      { split; [rewrite <- Rinv_1; apply Rinv_le_contravar; lra|].
        replace 11 with (/ (1 / 11)) by field. apply Rinv_le_contravar; lra. }
      assert (Bu : -11 <= u / sc <= 11) by (unfold Rdiv; split; nra).
      assert (Bv : -11 <= v / sc <= 11) by (unfold Rdiv; split; nra).
      rewrite !rsmall by (apply Rabs_le; lra). do 2 eexists. split; [reflexivity|].
      pose proof (rdd (u / sc) ltac:(apply Rabs_le; lra)) as T4. apply Rabs_le_inv in T4. unfold dlt in T4.
      pose proof (rdd (v / sc) ltac:(apply Rabs_le; lra)) as T5. apply Rabs_le_inv in T5. unfold dlt in T5.
      assert (8 / 10 <= v / sc - u / sc) by (unfold Rdiv; nra). lra. }
    destruct AB as (a' & b' & Eab & Hab).
    destruct (HT a' b' lo sc Hab ltac:(lra)) as (f & Ef & Rf & Mf).
    assert (EM : map (fun x => @tp_cdf_kern xr X Tn x (Fin lo, Fin sc)) (map Fin tab) = map Fin (map f tab)).
    { rewrite !map_map. apply map_ext. intros x. unfold tp_cdf_kern. rewrite Eab. apply Ef. }
    cbv zeta. rewrite EM.
    eapply box_weaken; [apply (interp_gen emin prec Hprec Hemin F HA big HB r (map f tab) tab (99 / 1000 - 6 * dlt) (1 + 6 * dlt))| |];
      try (unfold dlt; lra).
    - clear - St Mf. induction St as [|x l S IH Fx]; cbn [map]; constructor; [exact IH|].
      apply List.Forall_forall. intros y Hy. apply in_map_iff in Hy as (z & <- & Hz). rewrite List.Forall_forall in Fx. apply Mf, Fx, Hz.
    - exact St.
    - now rewrite map_length.
    - rewrite map_length. lia.
    - intros x Hx. apply in_map_iff in Hx as (y & <- & _). apply Rf.
    - intros x Hx. destruct (Rt x Hx) as [Mx Bx]. split; [exact Mx|]. lra.
  Qed.

  Lemma sat_peak_time : forall Tn p lgm t lgt0 r, machine_cdf Tn -> nprovides F TP_SATS p -> lgm <> NaN ->
    machine F t -> 6 / 10 <= t <= 15 ->
    exists tp, @peak_time xr X Tn Sat p lgm (Fin t) lgt0 (Fin r) = Ok (Fin tp) /\ machine F tp /\ rd (5 / 100) <= tp <= 20.
  Proof.
    intros Tn p lgm t lgt0 r HT H Hl Mt Ht. unfold peak_time, tpeak_sat_of_uran.
    destruct (loc_box p lgm (Fin t) H Hl ltac:(discriminate)) as (loc & -> & Bl). cbn [bind].
    destruct (scale_box p lgm (Fin t) H Hl ltac:(discriminate)) as (sc & -> & Bs). cbn [bind].
    pose proof (utp_sat_box Tn loc sc r HT Bl Bs) as Bu. assert (Bt := box_fin F t Mt).
    assert (M : bx (@nmul xr X (@utp_sat_of_uran xr X Tn (loc, sc) (Fin r)) (Fin t)) (5 / 100) 20).
    { eapply box_weaken; [apply (bmul _ _ _ _ _ _ (58 / 1000) 16 Bu Bt); [|lra|lra] | |]; unfold dlt; try lra.
      intros a b Ba Bb. split; nra. }
    destruct M as (tp & -> & Mtp & Bt'). exists tp. split; [reflexivity|]. split; [exact Mtp|].
    split; [|lra]. rewrite <- Mtp. apply (oa_mono F HF). lra.
  Qed.
End SatPeak.
