(** Peak times of centrals drawn in machine arithmetic. *)

From Coq Require Import Reals ZArith String List Bool Arith Lra Lia Sorting.Sorted.
From Flocq Require Import Core.
From Verif Require Import Model_Num Model_Kernels Model_Base Model_Utils Model_PopBase Model_PopData
  Model_PopParams Model_PopKernels Model_PopMC Model_Float Spec_Kernels Spec_Pop Spec_PopMC Spec_Float Spec_PopFloat
  RealAux Proofs_Float Proofs_Float2 Proofs_Float3 Proofs_Float4 Proofs_Float5 Proofs_PopBase Proofs_PopAll
  Proofs_PopInterp Proofs_PopKernels Proofs_PopCov Proofs_PopFloat2 Proofs_PopFloat6 Proofs_PopFloat7 Proofs_PopFloat8.
Import ListNotations.
Local Open Scope R_scope.
Local Open Scope string_scope.

Section Peak.
  Variables emin prec : Z.
  Hypothesis Hprec : (20 <= prec)%Z.
  Hypothesis Hemin : (emin <= - prec - 100)%Z.
  Variable F : arith.
  Hypothesis HA : faithful emin prec F.
  Variable big : R.
  Hypothesis HB : bpow radix2 120 <= big.

  Local Notation X := (Num_xfl F big).
  Local Notation rd := (rnd F).
  Local Notation bx := (box F).
  Let HF := fa_ordered _ _ _ HA.
  Let bconst := box_const emin prec Hprec Hemin F HA big HB.
  Let badd := box_add emin prec Hprec Hemin F HA big HB.
  Let bsub := box_sub emin prec Hprec Hemin F HA big HB.
  Let bmul := box_mul emin prec Hprec Hemin F HA big HB.
  Let bsig := box_sigmoid emin prec Hprec Hemin F HA big HB.
  Let bint := bconst_int emin prec Hprec Hemin F HA big HB.
  Let cint := const_int emin prec Hprec Hemin F HA big HB.
  Let csmall := const_small emin prec Hprec Hemin F HA big HB.

  Lemma round_small : forall r, Rabs r <= 127 -> xround F big (Fin r) = Fin (rd r).
  Proof. intros r Hr. exact (csmall r Hr). Qed.

  (** ** Interpolation *)

  Lemma search_fin : forall l r, @searchsorted_right xr X (map Fin l) (Fin r) = @searchsorted_right R Num_R l r.
  Proof.
    intros l r. unfold searchsorted_right. induction l as [|a l IH]; [reflexivity|]. cbn [map filter].
    change (@nleb xr X (Fin a) (Fin r)) with (Rleb a r). change (@nleb R Num_R a r) with (Rleb a r).
    destruct (Rleb a r); cbn [List.length]; now rewrite IH.
  Qed.

  Lemma nth_fin : forall k l, nth k (map Fin l) (@nconst xr X 0) = Fin (nth k l 0).
  Proof. intros k l. rewrite (cint 0) by lia. apply (map_nth Fin). Qed.

  Lemma interp_gen : forall r xp fp m M, 0 <= m -> M <= 2 -> sorted xp -> sorted fp -> List.length fp = List.length xp ->
    (2 <= List.length xp)%nat ->
    (forall x, In x xp -> 0 <= x <= 1) -> (forall x, In x fp -> machine F x /\ m <= x <= M) ->
    bx (@interp xr X (Fin r) (map Fin xp) (map Fin fp)) m (M + 2 * dlt).
  Proof.
    intros r xp fp m M Hm0 HM2 Sx Sf HL Hn Bx Bf. set (n := List.length xp) in *.
    assert (Bnx : forall k, (k < n)%nat -> 0 <= nth k xp 0 <= 1).
    { intros k Hk. apply Bx. apply nth_In. exact Hk. }
    assert (Bnf : forall k, (k < n)%nat -> bx (Fin (nth k fp 0)) m M).
    { intros k Hk. destruct (Bf (nth k fp 0)) as [Mm B]; [apply nth_In; lia|].
      exists (nth k fp 0). split; [reflexivity|]. split; [exact Mm | exact B]. }
    assert (W : forall x, bx x m M -> bx x m (M + 2 * dlt)).
    { intros x H. eapply box_weaken; [exact H | lra | unfold dlt; lra]. }
    unfold interp. rewrite search_fin, !map_length, HL. fold n.
    cbv zeta. rewrite !nth_fin.
    fold (bracket xp r). change (Nat.min (Nat.max (@searchsorted_right R Num_R xp r) 1) (n - 1)) with (bracket xp r).
    change (@nltb xr X (Fin (nth (n - 1) xp 0)) (Fin r)) with (Rltb (nth (n - 1) xp 0) r).
    change (@nltb xr X (Fin r) (Fin (nth 0 xp 0))) with (Rltb r (nth 0 xp 0)).
    assert (Hb : (1 <= bracket xp r <= n - 1)%nat) by (unfold bracket; fold n; lia).
    unfold jwhere at 1. destruct (Rltb (nth (n - 1) xp 0) r) eqn:E1; [apply W, Bnf; lia|].
    apply Rltb_false in E1.
    unfold jwhere at 1. destruct (Rltb r (nth 0 xp 0)) eqn:E2; [apply W, Bnf; lia|]. apply Rltb_false in E2.
    assert (Hin : nth (bracket xp r - 1) xp 0 <= r <= nth (bracket xp r) xp 0).
    { destruct (interp_cases r xp fp Sx HL Hn) as [[H _]|[[H _]|(_ & _ & _ & H)]]; [lra|fold n in H; lra|exact H]. }
    set (i := bracket xp r) in *.
    pose proof (Bnx i ltac:(lia)) as Bi. pose proof (Bnx (i - 1)%nat ltac:(lia)) as Bj.
    pose proof (Bnf i ltac:(lia)) as Fi. pose proof (Bnf (i - 1)%nat ltac:(lia)) as Fj.
    destruct (Bf (nth i fp 0)) as [_ Ci]; [apply nth_In; lia|].
    destruct (Bf (nth (i - 1) fp 0)) as [Mj Cj]; [apply nth_In; lia|].
    pose proof (sorted_nth fp (i - 1) i 0 Sf ltac:(lia)) as Gf.
    cbn [nsub Num_xfl xsub xneg xadd].
    change (nth i xp 0 + - nth (i - 1) xp 0) with (nth i xp 0 - nth (i - 1) xp 0).
    change (nth i fp 0 + - nth (i - 1) fp 0) with (nth i fp 0 - nth (i - 1) fp 0).
    change (r + - nth (i - 1) xp 0) with (r - nth (i - 1) xp 0).
    rewrite !round_small by (apply Rabs_le; lra).
    set (dx := rd (nth i xp 0 - nth (i - 1) xp 0)). set (df := rd (nth i fp 0 - nth (i - 1) fp 0)).
    set (dl := rd (r - nth (i - 1) xp 0)).
    assert (Hdl : 0 <= dl) by (apply (rd_nonneg F HF); lra).
    assert (Hdx : dl <= dx) by (apply (oa_mono F HF); lra).
    assert (Hdf : 0 <= df) by (apply (rd_nonneg F HF); lra).
    assert (Hdf1 : df <= nth i fp 0 - nth (i - 1) fp 0 + dlt).
    { pose proof (rd_dlt emin prec Hprec Hemin F HA (nth i fp 0 - nth (i - 1) fp 0) ltac:(apply Rabs_le; lra)) as T.
      apply Rabs_le_inv in T. unfold df. lra. }
    assert (Ea : @nabs xr X (Fin dx) = Fin dx).
    { unfold nabs. rewrite (cint 0) by lia. change (@nltb xr X (Fin dx) (Fin 0)) with (Rltb dx 0).
      unfold jwhere. destruct (Rltb dx 0) eqn:E; [apply Rltb_true in E; lra | reflexivity]. }
    rewrite Ea.
    assert (Ee : exists eps, @INTERP_EPS xr X = Fin eps /\ 0 <= eps).
    { unfold INTERP_EPS. pose proof INTERP_EPS_pos as P. unfold INTERP_EPS in P. cbn [nconst Num_R] in P.
      exists (rd (/ 2 ^ 46)). split; [|apply (rd_nonneg F HF); lra]. apply csmall. apply Rabs_le. split; [lra|].
      apply Rle_trans with 1; [|lra]. rewrite <- Rinv_1. apply Rinv_le_contravar; [lra|]. apply pow_R1_Rle. lra. }
    destruct Ee as (eps & -> & He). change (@nleb xr X (Fin dx) (Fin eps)) with (Rleb dx eps).
    destruct (Rleb dx eps) eqn:E3; unfold jwhere; [apply W, Fj|]. apply Rleb_false in E3.
    assert (Q : @ndiv xr X (Fin dl) (Fin dx) = Fin (rd (dl / dx)) /\ 0 <= rd (dl / dx) <= 1).
    { assert (B : 0 <= dl / dx <= 1).
      { split; [apply Rmult_le_pos; [lra|left; apply Rinv_0_lt_compat; lra]|].
        apply Rmult_le_reg_r with dx; [lra|]. unfold Rdiv. rewrite Rmult_assoc, Rinv_l by lra. lra. }
      split.
      - cbn [ndiv Num_xfl xdiv]. assert (K : Reqb dx 0 = false) by (unfold Reqb; destruct (Req_EM_T dx 0); [lra | reflexivity]).
        rewrite K. apply round_small. apply Rabs_le. lra.
      - split; [apply (rd_nonneg F HF); lra|]. apply (rd_le F HF); [apply (oa_one F HF) | lra]. }
    destruct Q as (-> & Hq). set (q := rd (dl / dx)) in *.
    cbn [nmul nadd Num_xfl xmul]. rewrite (round_small (q * df)).
    2: { apply Rabs_le. unfold dlt in Hdf1. assert (df <= 3) by lra. nra. }
    assert (Mdf : machine F df) by apply (oa_idem F HF).
    assert (Hm : 0 <= rd (q * df) <= df).
    { split; [apply (rd_nonneg F HF); nra|]. apply (rd_le F HF); [exact Mdf | nra]. }
    cbn [xadd].
    rewrite round_small by (apply Rabs_le; unfold dlt in *; lra).
    exists (rd (nth (i - 1) fp 0 + rd (q * df))). split; [reflexivity|]. split; [apply (oa_idem F HF)|].
    split.
    { apply Rle_trans with (nth (i - 1) fp 0); [lra|]. rewrite <- Mj at 1. apply (oa_mono F HF). lra. }
    pose proof (rd_dlt emin prec Hprec Hemin F HA (nth (i - 1) fp 0 + rd (q * df))
      ltac:(apply Rabs_le; unfold dlt in *; lra)) as T.
    apply Rabs_le_inv in T. lra.
  Qed.

  Lemma interp_box : forall r xp fp, sorted xp -> sorted fp -> List.length fp = List.length xp ->
    (2 <= List.length xp)%nat ->
    (forall x, In x xp -> 0 <= x <= 1) -> (forall x, In x fp -> machine F x /\ 0 <= x <= 1) ->
    bx (@interp xr X (Fin r) (map Fin xp) (map Fin fp)) 0 (1 + 2 * dlt).
  Proof. intros r xp fp. apply interp_gen; lra. Qed.

  (** ** The table *)

  Lemma table_entry : forall i, (i < 200)%nat ->
    let s := @nconst xr X (INR i / INR (200 - 1)) in
    @nadd xr X (@nmul xr X (@nconst xr X 0) (@nsub xr X (@nconst xr X 1) s)) (@nmul xr X (@nconst xr X 1) s)
    = Fin (rd (INR i / 199)).
  Proof.
    intros i Hi. cbv zeta. replace (INR (200 - 1)) with 199 by (cbn; lra).
    assert (B : 0 <= INR i / 199 <= 1).
    { pose proof (pos_INR i). assert (INR i <= 199) by (replace 199 with (INR 199) by (cbn; lra); apply le_INR; lia). lra. }
    rewrite (csmall (INR i / 199)) by (apply Rabs_le; lra). rewrite (cint 0), (cint 1) by lia.
    set (s := rd (INR i / 199)).
    assert (Ms : machine F s) by apply (oa_idem F HF).
    assert (Bs : 0 <= s <= 1).
    { split; [apply (rd_nonneg F HF); lra | apply (rd_le F HF); [apply (oa_one F HF) | lra]]. }
    cbn [nsub nmul nadd Num_xfl xsub xneg xadd xmul].
    rewrite (round_small (1 + - s)) by (apply Rabs_le; lra). cbn [xmul].
    rewrite Rmult_0_l, Rmult_1_l. rewrite (round_small 0), (round_small s) by (apply Rabs_le; lra).
    rewrite (oa_zero F HF), Ms. cbn [xadd]. rewrite Rplus_0_l. rewrite round_small by (apply Rabs_le; lra). now rewrite Ms.
  Qed.

  Definition table : list R := map (fun i => rd (INR i / 199)) (seq 0 200).

  Lemma table_fin : @UTP_TABLE xr X = map Fin table.
  Proof.
    unfold UTP_TABLE, linspace, table. rewrite map_map. apply map_ext_in. intros i Hi. apply in_seq in Hi.
    apply table_entry. lia.
  Qed.

  Lemma sorted_map_seq : forall (f : nat -> R), (forall i j, (i <= j)%nat -> f i <= f j) ->
    forall n m, sorted (map f (seq m n)).
  Proof.
    intros f Hf n. induction n as [|n IH]; intros m; cbn [seq map]; [constructor|]. constructor; [apply IH|].
    apply List.Forall_forall. intros x Hx. apply in_map_iff in Hx as (j & <- & Hj). apply in_seq in Hj. apply Hf. lia.
  Qed.

  Lemma table_sorted : sorted table.
  Proof.
    apply sorted_map_seq. intros i j H. apply (oa_mono F HF). apply Rmult_le_compat_r; [lra|]. now apply le_INR.
  Qed.

  Lemma table_range : forall x, In x table -> machine F x /\ 0 <= x <= 1.
  Proof.
    intros x Hx. apply in_map_iff in Hx as (i & <- & Hi). apply in_seq in Hi.
    split; [apply (oa_idem F HF)|]. pose proof (pos_INR i).
    assert (INR i <= 199) by (replace 199 with (INR 199) by (cbn; lra); apply le_INR; lia).
    split; [apply (rd_nonneg F HF); lra | apply (rd_le F HF); [apply (oa_one F HF) | lra]].
  Qed.

  (** ** The cumulative distribution at the table *)

  Definition step (x0 u : R) : R := ramp F 0 1 (lib_logistic F (rd (5 * rd (u - x0)))).

  Lemma step_fin : forall x0 u, -3 <= x0 <= 3 -> 0 <= u <= 1 ->
    @sigmoid xr X (Fin u) (Fin x0) (@TPC_K xr X) (@TPC_YLO xr X) (@TPC_YHI xr X) = Fin (step x0 u).
  Proof.
    intros x0 u B0 Bu. unfold TPC_K, TPC_YLO, TPC_YHI, sigmoid. rewrite (cint 0), (cint 1), (cint 5) by lia.
    cbn [nsub nmul nlogistic Num_xfl xsub xneg xadd xmul].
    change (u + - x0) with (u - x0). rewrite (round_small (u - x0)) by (apply Rabs_le; lra). cbn [xmul].
    pose proof (rd_dlt emin prec Hprec Hemin F HA (u - x0) ltac:(apply Rabs_le; lra)) as T. apply Rabs_le_inv in T. unfold dlt in T.
    rewrite (round_small (5 * rd (u - x0))) by (apply Rabs_le; lra). cbn [xlib].
    destruct (oa_logistic F HF (rd (5 * rd (u - x0)))) as [Bl Ml]. set (g := lib_logistic F (rd (5 * rd (u - x0)))) in *.
    assert (E : overflow big g = Fin g).
    { apply (no_over big HB g 0); [lia|]. change (bpow radix2 0) with 1. apply Rabs_le. lra. }
    rewrite E. apply (pramp emin prec Hprec Hemin F HA big HB); [| |exact Bl]; change (bpow radix2 7) with 128; apply Rabs_le; lra.
  Qed.

  Lemma ramp01 : forall g, 0 <= g <= 1 -> machine F g -> ramp F 0 1 g = g.
  Proof.
    intros g Bg Mg. unfold ramp. rewrite Rminus_0_r, (oa_one F HF), Rmult_1_l, Mg, Rplus_0_l. exact Mg.
  Qed.

  Lemma step_mono : forall x0 u v, u <= v -> step x0 u <= step x0 v.
  Proof.
    intros x0 u v H. unfold step. destruct (oa_logistic F HF (rd (5 * rd (u - x0)))) as [B1 M1].
    destruct (oa_logistic F HF (rd (5 * rd (v - x0)))) as [B2 M2]. rewrite !ramp01 by assumption.
    apply (oa_logistic_mono F HF). apply (oa_mono F HF). apply Rmult_le_compat_l; [lra|]. apply (oa_mono F HF). lra.
  Qed.

  Lemma step_range : forall x0 u, 0 <= step x0 u <= 1.
  Proof.
    intros x0 u. unfold step. destruct (oa_logistic F HF (rd (5 * rd (u - x0)))) as [B1 M1]. now rewrite ramp01.
  Qed.

  Local Tactic Notation "nf" hyp(H) constr(k) ident(v) ident(E) ident(B) :=
    destruct (nfield F _ _ k _ _ H ltac:(in_list)) as (v & E & B); try rewrite E; cbn [bind].

  Lemma x0_box : forall p lgm t, nprovides F TPCENS_FLEX p -> lgm <> NaN -> t <> NaN ->
    exists v, @get_utp_x0_from_lgm xr X p lgm t = Ok v /\ bx v (4 / 10) 2.
  Proof.
    intros p lgm t H Hl Ht. unfold get_utp_x0_from_lgm, UTP_LGM_X0_K, UTP_T_OBS_X0_K.
    nf H "cen_tp_lgm_x0_x0" a Ea Ba. nf H "cen_tp_x0_ylo_early" b Eb Bb. nf H "cen_tp_x0_yhi_early" c Ec Bc.
    nf H "cen_tp_x0_ylo_late" d Ed Bd. nf H "cen_tp_x0_yhi_late" e Ee Be. nf H "cen_tp_t_obs_x0_x0" z Ez Bz.
    eexists. split; [reflexivity|].
    assert (S : forall y w, bx y (5 / 10 - tol) (1 + tol) -> bx w (1 - tol) (18 / 10 + tol) ->
      bx (@sigmoid xr X lgm a (@nconst xr X 1) y w) (5 / 10 - tol - 3 * dlt) (18 / 10 + tol + 3 * dlt)).
    { intros y w By Bw. eapply bsig; [exact Hl | exact Ba | apply (bint 1); lia | lra | exact By | exact Bw | | | | | |]; unfold tol; lra. }
    eapply box_weaken; [eapply (bsig _ _ _ _ _ _ _ _ _ _ _ _ _ (5 / 10 - tol - 3 * dlt) (18 / 10 + tol + 3 * dlt));
      [exact Ht | exact Bz | apply (bint 2); lia | lra | apply (S _ _ Bb Bc) | apply (S _ _ Bd Be) | | | | | |] | |];
      unfold tol, dlt; lra.
  Qed.

  Lemma utp_box : forall p lgm t r, nprovides F TPCENS_FLEX p -> lgm <> NaN -> t <> NaN ->
    exists v, @utp_of_uran xr X p lgm t (Fin r) = Ok v /\ bx v (5 / 100 - dlt) (1 + 2 * dlt).
  Proof.
    intros p lgm t r H Hl Ht. unfold utp_of_uran, frac_peaked_vs_lgm.
    destruct (x0_box p lgm t H Hl Ht) as (v & -> & x0 & -> & M0 & B0). cbn [bind].
    eexists. split; [reflexivity|]. rewrite table_fin, map_map.
    assert (E : map (fun u => @sigmoid xr X (Fin u) (Fin x0) (@TPC_K xr X) (@TPC_YLO xr X) (@TPC_YHI xr X)) table
      = map Fin (map (step x0) table)).
    { rewrite map_map. apply map_ext_in. intros u Hu. apply step_fin; [lra|]. now apply table_range. }
    rewrite E. unfold clip_min.
    assert (I : bx (@interp xr X (Fin r) (map Fin (map (step x0) table)) (map Fin table)) 0 (1 + 2 * dlt)).
    { apply interp_box.
      - unfold table. rewrite map_map. apply sorted_map_seq. intros i j Hij. apply step_mono. apply (oa_mono F HF).
        apply Rmult_le_compat_r; [lra|]. now apply le_INR.
      - exact table_sorted.
      - now rewrite map_length.
      - rewrite map_length. unfold table. rewrite map_length, seq_length. lia.
      - intros x Hx. apply in_map_iff in Hx as (u & <- & _). apply step_range.
      - exact table_range. }
    assert (C : bx (@UTP_MIN xr X) (5 / 100 - dlt) (5 / 100 + dlt)).
    { unfold UTP_MIN. apply bconst. apply Rabs_le. lra. }
    eapply box_weaken; [apply (box_max F big); [exact I | exact C] | |]; bounds_tac.
  Qed.

  (** Today's time from its logarithm. *)
  Lemma t0_box : forall z, 1 / 10 <= z <= 12 / 10 -> bx (@npow10 xr X (Fin z)) (115 / 100) 17.
  Proof.
    intros z Hz. cbn [npow10 Num_xfl xlib].
    pose proof (fa_pow10 _ _ _ HA z ltac:(lra)) as E. apply Rabs_le_inv in E.
    assert (PW : forall x n, pow10 x ^ n = pow10 (INR n * x)).
    { intros x n. induction n as [|n IH]; [cbn [pow INR]; rewrite Rmult_0_l; symmetry; apply pow10_0|].
      cbn [pow]. rewrite IH, <- pow10_plus, S_INR. f_equal. lra. }
    assert (L : 12 / 10 <= pow10 z).
    { apply Rle_trans with (pow10 (1 / 10)); [|apply pow10_le; lra].
      destruct (Rle_lt_dec (12 / 10) (pow10 (1 / 10))) as [K|K]; [exact K|exfalso].
      pose proof (PW (1 / 10) 10%nat) as P. replace (INR 10 * (1 / 10)) with 1 in P by (cbn; lra). rewrite pow10_1 in P.
      pose proof (pow10_pos (1 / 10)).
      assert (pow10 (1 / 10) ^ 10 <= (12 / 10) ^ 10) by (apply pow_incr; lra). lra. }
    assert (U : pow10 z <= 16).
    { apply Rle_trans with (pow10 (12 / 10)); [apply pow10_le; lra|].
      destruct (Rle_lt_dec (pow10 (12 / 10)) 16) as [K|K]; [exact K|exfalso].
      pose proof (PW (12 / 10) 5%nat) as P. pose proof (PW 1 6%nat) as Q. rewrite pow10_1 in Q.
      replace (INR 5 * (12 / 10)) with (INR 6 * 1) in P by (cbn; lra). rewrite <- Q in P.
      assert (16 ^ 5 <= pow10 (12 / 10) ^ 5) by (apply pow_incr; lra). lra. }
    destruct (oa_pow10 F HF z) as [_ M].
    exists (lib_pow10 F z). split; [|split; [exact M | lra]].
    apply (no_over big HB _ 7); [lia|]. change (bpow radix2 7) with 128. apply Rabs_le. lra.
  Qed.

  Lemma peak_time_box : forall Tn p lgm t z r, nprovides F TPCENS_FLEX p -> lgm <> NaN -> t <> NaN ->
    1 / 10 <= z <= 12 / 10 ->
    exists tp, @peak_time xr X Tn Cen p lgm t (Fin z) (Fin r) = Ok (Fin tp) /\ machine F tp /\ rd (5 / 100) <= tp <= 20.
  Proof.
    intros Tn p lgm t z r H Hl Ht Hz. unfold peak_time, tpeak_cen_of_uran.
    destruct (utp_box p lgm t r H Hl Ht) as (v & -> & Bv). cbn [bind].
    pose proof (t0_box z Hz) as B0.
    assert (M : bx (@nmul xr X v (@npow10 xr X (Fin z))) (5 / 100) 20).
    { eapply box_weaken; [apply (bmul _ _ _ _ _ _ (57 / 1000) 18 Bv B0); [|lra|lra] | |]; unfold dlt; try lra.
      intros a b Ba Bb. unfold dlt in Ba. split; nra. }
    destruct M as (tp & -> & Mt & Bt). exists tp. split; [reflexivity|]. split; [exact Mt|].
    split; [|lra]. rewrite <- Mt. apply (oa_mono F HF). lra.
  Qed.
End Peak.
