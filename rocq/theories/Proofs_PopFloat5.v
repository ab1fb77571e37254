(** Parameters above their upper bound. *)

From Coq Require Import Reals ZArith String List Bool Arith Lra Lia.
From Flocq Require Import Core.
From Verif Require Import Model_Num Model_Kernels Model_Base Model_PopBase Model_PopData Model_PopParams
  Model_Float Spec_Pop Spec_Float Spec_PopFloat RealAux Proofs_Float Proofs_Float2 Proofs_Float3
  Proofs_Float4 Proofs_Float5 Proofs_FloatQ Proofs_PopBase Proofs_PopParams Proofs_PopAll
  Proofs_PopFloat Proofs_PopFloat2 Proofs_PopFloat3 Proofs_PopFloat4.
Import ListNotations.
Local Open Scope R_scope.
Local Open Scope string_scope.

Local Notation pw := (bpow radix2).
(** Infinite, or at least 2000. *)
Definition large (x : xr) : Prop := x = PInf \/ exists r, x = Fin r /\ 2000 <= r.

Definition fovershoots (emin prec : Z) (over : list string) (e : string * (frac * frac)) : bool :=
  let '(k, (lo, hi)) := e in
  let r := frnd emin prec in
  let top := ftop emin prec lo hi in
  let width := r (fsub (r hi) (r lo)) in
  if existsb (String.eqb k) over then
    negb (fleb top (r hi)) && negb (fleb width (0, 1)%Z) &&
    fleb (r (fsub top (r lo))) width && fleb width (r (fsub top (r lo)))
  else true.

Lemma all_overshoot32 : forallb (fovershoots (-149) 24 overshooting32) FRACTIONS = true.
Proof. vm_compute. reflexivity. Qed.

Lemma all_overshoot64 : forallb (fovershoots (-1074) 53 overshooting64) FRACTIONS = true.
Proof. vm_compute. reflexivity. Qed.

(** Unbounding field by field, whatever the numbers. *)
Lemma unbounded_field : forall {A} {N : Num A} c (p : rec A), wfc c -> shaped (c_names c) p ->
  exists v, get_unbounded_params c p = Ok v /\ shaped (c_unames c) v /\
    forall k bd, In (k, bd) (c_bdict c) -> exists x, has p k x /\ has v (uname k) (get_unbounded_param x bd).
Proof.
  intros A N c p Hw Hs.
  assert (Hg : getattrs p (c_names c) = Ok (values p)).
  { unfold shaped in Hs. rewrite <- Hs. apply getattrs_self. unfold fields. rewrite Hs. apply Hw. }
  pose proof (wfc_bnds_length c Hw) as Lb. pose proof (shaped_length _ _ Hs) as L.
  set (vs := map (fun xy => get_unbounded_param (fst xy) (snd xy)) (combine (values p) (bnds c))).
  assert (Lv : List.length vs = List.length (c_names c)).
  { unfold vs. rewrite map_length, combine_length. lia. }
  exists (combine (c_unames c) vs). split; [|split].
  - unfold get_unbounded_params. rewrite Hg. cbn [bind]. rewrite wfc_pbounds by exact Hw. cbn [bind].
    unfold vmap2. replace (List.length (values p) =? List.length (values (c_bdict c)))%nat with true.
    2:{ symmetry. apply Nat.eqb_eq. unfold values at 2. unfold bnds in Lb. lia. }
    cbn [bind]. apply make_ok. unfold c_unames. rewrite map_length. symmetry. exact Lv.
  - unfold shaped. apply fields_combine. unfold c_unames. rewrite map_length. lia.
  - intros k bd I. rewrite (bdict_combine c Hw) in I.
    assert (G : forall ns (ps : list A) bs, List.length ns = List.length bs -> List.length ps = List.length bs ->
      In (k, bd) (combine ns bs) -> exists x, In (k, x) (combine ns ps) /\
        In (uname k, get_unbounded_param x bd)
          (combine (map uname ns) (map (fun xy => get_unbounded_param (fst xy) (snd xy)) (combine ps bs)))).
    { clear. intros ns. induction ns as [|n ns IH]; intros [|q ps] [|b bs] H1 H2 I;
        cbn [combine map In List.length] in *; try discriminate; try easy.
      injection H1 as H1. injection H2 as H2. destruct I as [I | I].
      - injection I as -> ->. exists q. cbn [fst snd]. auto.
      - destruct (IH ps bs H1 H2 I) as (x & J1 & J2). exists x. auto. }
    destruct (G (c_names c) (values p) (bnds c) ltac:(lia) ltac:(lia) I) as (x & J1 & J2).
    exists x. split; [|exact J2]. unfold has. rewrite (shaped_combine _ _ Hs). exact J1.
Qed.

Section Over.
  Variables emin prec : Z.
  Hypothesis Hprec : (20 <= prec <= 60)%Z.
  Hypothesis Hemin : (emin <= - prec - 100)%Z.
  Variable big : R.
  Hypothesis HB : pw 120 <= big.
  Variable over : list string.
  Hypothesis HC : forallb (fovershoots emin prec over) FRACTIONS = true.

  Local Notation F := (ieee emin prec).
  Local Notation X := (Num_xfl F big).
  Local Notation rd := (rnd F).

  Let HQ : (20 <= prec)%Z := proj1 Hprec.
  Let HA := ieee_faithful emin prec HQ Hemin.
  Let HF := fa_ordered _ _ _ HA.
  Let HP := faithful_pow2 emin prec HQ Hemin F HA.

  (** A sigmoid within 2^-62 of one is one. *)
  Lemma rne_one : forall x, 1 - pw (-62) <= x <= 1 -> rne emin prec x = 1.
  Proof.
    intros x Hx.
    assert (Hp : Prec_gt_0 prec) by (unfold Prec_gt_0; lia).
    pose proof (faithful_int emin prec HQ Hemin F HA 1 ltac:(lia)) as H1. cbn [rnd ieee] in H1.
    apply Rle_antisym.
    - apply Rle_trans with (rne emin prec 1); [apply rne_mono; [lia | lra] | lra].
    - unfold rne. apply round_N_ge_midp; [auto with typeclass_instances | |].
      + apply rne_fix_format; [lia | exact H1].
      + change 1 with (pw 0) at 2. rewrite pred_bpow by (auto with typeclass_instances).
        unfold FLT_exp. replace (Z.max (0 - prec) emin) with (- prec)%Z by lia.
        change (pw 0) with 1.
        assert (H : pw (-60) <= pw (- prec)) by (apply bpow_le; lia).
        change (pw (-60)) with (/ 1152921504606846976) in H.
        change (pw (-62)) with (/ 4611686018427387904) in Hx. lra.
  Qed.

  Lemma logistic_64 : forall x, 62 <= x -> 1 - pw (-62) <= logistic x <= 1.
  Proof.
    intros x Hx. pose proof (logistic_bounds x) as Hb. split; [|lra].
    apply Rle_trans with (logistic 62); [|now apply logistic_le].
    unfold logistic.
    assert (He : exp (- (62)) <= pw (-62)).
    { rewrite exp_Ropp. change (pw (-62)) with (/ 4611686018427387904).
      assert (2 ^ 62 <= exp 62).
      { replace 62 with (INR 62) by (cbn; lra). apply exp_ge_pow2. }
      apply Rinv_le_contravar; [lra|]. cbn [pow] in H. lra. }
    pose proof (exp_pos (- (62))) as Hp.
    assert (1 - exp (- (62)) <= / (1 + exp (- (62)))).
    { apply Rmult_le_reg_r with (1 + exp (- (62))); [lra|]. rewrite Rinv_l by lra. nra. }
    lra.
  Qed.

Lemma overflow_large : forall r m, 0 < m -> m <= r -> overflow big r = PInf \/ overflow big r = Fin r.
Proof.
  intros r m Hm H. unfold overflow. pose proof HB as HB. pose proof (bpow_gt_0 radix2 120) as H0.
  destruct (Rltb_spec big r) as [[-> _] | [-> _]]; [now left|].
  destruct (Rltb_spec r (- big)) as [[_ H2] | [-> _]]; [lra | now right].
Qed.

Lemma tenth_range : / 16 <= rd (1 / 10) <= 1.
Proof.
  split.
  - apply (rd_ge F HF); [exact (HP (-4)%Z ltac:(lia)) | lra].
  - apply (rd_le F HF); [exact (HP 0%Z ltac:(lia)) | lra].
Qed.

(** The sigmoid of a large argument is one. *)
Lemma sigmoid_one : forall x m, large x -> Rabs m <= 256 ->
  @nlogistic xr X (@nmul xr X (Fin (rd (1 / 10))) (@nsub xr X x (Fin m))) = Fin 1.
Proof.
  intros x m Hx Hm. apply Rabs_le_inv in Hm. pose proof tenth_range as HT.
  set (k := rd (1 / 10)) in *.
  assert (H1024 : machine F 1024) by exact (HP 10%Z ltac:(lia)).
  assert (H64 : machine F 64) by exact (HP 6%Z ltac:(lia)).
  assert (HK : @nmul xr X (Fin k) PInf = PInf).
  { cbn [nmul Num_xfl xmul]. unfold xscale_inf, Reqb. destruct (Req_EM_T k 0) as [E | _]; [lra|].
    destruct (Rltb_spec 0 k) as [[-> _] | [_ H]]; [reflexivity | lra]. }
  assert (HL : @nlogistic xr X PInf = Fin 1) by reflexivity.
  destruct Hx as [-> | (r & -> & Hr)].
  - change (@nsub xr X PInf (Fin m)) with PInf. now rewrite HK.
  - cbn [nsub Num_xfl xsub xneg xadd xround].
    assert (Ha : 1024 <= rd (r + - m)) by (apply (rd_ge F HF); [exact H1024 | lra]).
    destruct (overflow_large _ 1024 ltac:(lra) Ha) as [-> | ->]; [now rewrite HK|].
    set (a := rd (r + - m)) in *. cbn [nmul Num_xfl xmul xround].
    assert (Hb : 64 <= rd (k * a)) by (apply (rd_ge F HF); [exact H64 | nra]).
    destruct (overflow_large _ 64 ltac:(lra) Hb) as [-> | ->]; [exact HL|].
    cbn [nlogistic Num_xfl xlib].
    change (lib_logistic F (rd (k * a))) with (rne emin prec (logistic (rd (k * a)))).
    assert (Hb' : 62 <= rd (k * a)) by lra.
    rewrite (rne_one _ (logistic_64 _ Hb')).
    apply (no_over big HB 1 120); [lia | apply size120; lra].
Qed.

Lemma bounded_large : forall x lo hi, large x -> Rabs lo <= pw 7 -> Rabs hi <= pw 7 ->
  @get_bounded_param xr X x (lo, hi) = Fin (rd (rd lo + rd (rd hi - rd lo))).
Proof.
  intros x lo hi Hx Hl Hh. unfold get_bounded_param, K_BOUNDING, sigmoid. cbn [fst snd].
  pose proof (pconst emin prec HQ Hemin F HA big HB) as PC.
  assert (Hl' := rd_abs F HF HP lo 7 ltac:(lia) Hl).
  assert (Hh' := rd_abs F HF HP hi 7 ltac:(lia) Hh).
  rewrite (PC lo Hl), (PC hi Hh).
  rewrite (pmid emin prec HQ Hemin F HA big HB _ _ Hl' Hh').
  rewrite (PC (1 / 10)) by (change (pw 7) with 128; rewrite Rabs_pos_eq; lra).
  change (pw 7) with 128 in *. apply Rabs_le_inv in Hl'. apply Rabs_le_inv in Hh'.
  assert (Hs : Rabs (rd (rd lo + rd hi)) <= pw 8).
  { apply (rd_abs F HF HP); [lia|]. change (pw 8) with 256. apply Rabs_le. lra. }
  assert (Hm : Rabs (rd (rd (1 / 2) * rd (rd lo + rd hi))) <= 256).
  { change 256 with (pw 8). apply (rd_abs F HF HP); [lia|].
    rewrite (half_machine F HP), Rabs_mult, (Rabs_pos_eq (1 / 2)) by lra.
    pose proof (bpow_ge_0 radix2 8). lra. }
  rewrite (sigmoid_one x _ Hx Hm).
  rewrite (pramp emin prec HQ Hemin F HA big HB);
    [| change (pw 7) with 128; apply Rabs_le; lra | change (pw 7) with 128; apply Rabs_le; lra | lra].
  unfold ramp. rewrite Rmult_1_r. now rewrite (oa_idem F HF (rd hi - rd lo)).
Qed.

(** Unbounding the largest value: infinity, when the width is recovered exactly. *)
Lemma unbounded_top : forall lo hi y, Rabs lo <= pw 7 -> Rabs hi <= pw 7 -> Rabs y <= pw 9 ->
  rd (y - rd lo) = rd (rd hi - rd lo) -> rd (rd hi - rd lo) <> 0 ->
  @get_unbounded_param xr X (Fin y) (lo, hi) = PInf.
Proof.
  intros lo hi y Hl Hh Hy E Hd. unfold get_unbounded_param, K_BOUNDING, inverse_sigmoid. cbn [fst snd].
  pose proof (pconst emin prec HQ Hemin F HA big HB) as PC.
  assert (Hl' := rd_abs F HF HP lo 7 ltac:(lia) Hl).
  assert (Hh' := rd_abs F HF HP hi 7 ltac:(lia) Hh).
  pose proof tenth_range as HT.
  rewrite (PC lo Hl), (PC hi Hh).
  rewrite (pmid emin prec HQ Hemin F HA big HB _ _ Hl' Hh').
  rewrite (PC (1 / 10)), (PC 1) by (change (pw 7) with 128; rewrite Rabs_pos_eq; lra).
  replace (rd 1) with 1 by (symmetry; exact (faithful_int emin prec HQ Hemin F HA 1 ltac:(lia))).
  change (pw 7) with 128 in *. change (pw 9) with 512 in *.
  apply Rabs_le_inv in Hl'. apply Rabs_le_inv in Hh'. apply Rabs_le_inv in Hy.
  set (l := rd lo) in *. set (h := rd hi) in *. set (k := rd (1 / 10)) in *.
  assert (W : forall z, Rabs z <= pw 10 -> xround F big (Fin z) = Fin (rd z)).
  { intros z Hz. cbn [xround]. apply (no_over big HB _ 10); [lia|].
    apply (rd_abs F HF HP); [lia | exact Hz]. }
  assert (S : forall z, -1024 <= z <= 1024 -> Rabs z <= pw 10).
  { intros z Hz. change (pw 10) with 1024. apply Rabs_le. lra. }
  cbn [nsub ndiv nlog Num_xfl xsub xneg xadd].
  rewrite (W (h + - l)) by (apply S; lra). rewrite (W (y + - l)) by (apply S; lra).
  replace (rd (y + - l)) with (rd (h + - l)) by (symmetry; exact E).
  change (rd (h - l)) with (rd (h + - l)) in Hd. set (d := rd (h + - l)) in *.
  cbn [xdiv]. unfold Reqb at 1. destruct (Req_EM_T d 0) as [Z | _]; [contradiction|].
  replace (d / d) with 1 by (field; exact Hd).
  rewrite (W 1) by (apply S; lra). replace (rd 1) with 1 by (symmetry; exact (faithful_int emin prec HQ Hemin F HA 1 ltac:(lia))).
  cbn [xsub xadd xneg]. replace (1 + - (1)) with 0 by ring. rewrite (W 0) by (apply S; lra).
  replace (rd 0) with 0 by (symmetry; exact (faithful_int emin prec HQ Hemin F HA 0 ltac:(lia))).
  cbn [xliblog].
  destruct (Rltb_spec 0 0) as [[_ H] | [-> _]]; [lra|]. cbn [xlog_gen].
  destruct (Rltb_spec 0 0) as [[_ H] | [-> _]]; [lra|].
  unfold Reqb. destruct (Req_EM_T 0 0) as [_ | Q]; [|lra]. cbn [xdiv].
  unfold Reqb. destruct (Req_EM_T k 0) as [Q | _]; [lra|].
  unfold xscale_inf, Reqb. destruct (Req_EM_T k 0) as [Q | _]; [lra|].
  destruct (Rltb_spec 0 k) as [[-> _] | [_ H]]; [|lra]. reflexivity.
Qed.

Lemma overshoot_facts : forall k lo hi, In (k, (lo, hi)) ALL_BOUNDS -> In k over ->
  let top := rd (rd lo + rd (rd hi - rd lo)) in
  rd hi < top /\ rd (top - rd lo) = rd (rd hi - rd lo) /\ rd (rd hi - rd lo) <> 0.
Proof.
  intros k lo hi I Ik. destruct (bound_fraction k lo hi I) as (ql & qh & J & -> & ->).
  pose proof check32 as C. rewrite forallb_forall in C. specialize (C _ J). unfold fcheck in C.
  apply andb_prop in C as [C _]. apply andb_prop in C as [C _]. apply andb_prop in C as [C _].
  apply andb_prop in C as [C _]. apply andb_prop in C as [C1 C2].
  apply Z.ltb_lt in C1. apply Z.ltb_lt in C2.
  assert (P1 : fpos ql) by exact C1. assert (P2 : fpos qh) by exact C2.
  pose proof HC as H. rewrite forallb_forall in H. specialize (H _ J). unfold fovershoots in H.
  replace (existsb (String.eqb k) over) with true in H.
  2:{ symmetry. apply existsb_exists. exists k. split; [exact Ik | apply String.eqb_refl]. }
  apply andb_prop in H as [H H4]. apply andb_prop in H as [H H3]. apply andb_prop in H as [H1 H2].
  apply negb_true_iff in H1. apply negb_true_iff in H2.
  pose proof (fpos_rnd emin prec) as FP. pose proof (fr_rnd emin prec) as FR.
  assert (PW : fpos (frnd emin prec (fsub (frnd emin prec qh) (frnd emin prec ql))))
    by (auto 10 using fpos_sub).
  assert (PT : fpos (ftop emin prec ql qh)) by (unfold ftop; auto 10 using fpos_add, fpos_sub).
  assert (PD : fpos (frnd emin prec (fsub (ftop emin prec ql qh) (frnd emin prec ql))))
    by (auto 10 using fpos_sub).
  assert (P0 : fpos (0, 1)%Z) by (unfold fpos; cbn; lia).
  apply (fleb_gt _ _ PT (FP _ P2)) in H1. apply (fleb_gt _ _ PW P0) in H2.
  apply (fleb_le _ _ PD PW) in H3. apply (fleb_le _ _ PW PD) in H4.
  change (fr (0, 1)%Z) with (0 / 1) in H2.
  assert (EW : fr (frnd emin prec (fsub (frnd emin prec qh) (frnd emin prec ql))) = rd (rd (fr qh) - rd (fr ql))).
  { rewrite FR, fr_sub, !FR by (auto 10 using fpos_sub). reflexivity. }
  assert (ET : fr (ftop emin prec ql qh) = rd (rd (fr ql) + rd (rd (fr qh) - rd (fr ql)))).
  { unfold ftop. rewrite FR, fr_add, !FR, fr_sub, !FR by (auto 10 using fpos_add, fpos_sub). reflexivity. }
  assert (ED : fr (frnd emin prec (fsub (ftop emin prec ql qh) (frnd emin prec ql)))
    = rd (rd (rd (fr ql) + rd (rd (fr qh) - rd (fr ql))) - rd (fr ql))).
  { rewrite FR, fr_sub, ET, FR by (auto 10 using fpos_sub). reflexivity. }
  rewrite EW in *. rewrite ET in *. rewrite ED in *. rewrite FR in H1 by exact P2.
  cbv zeta. split; [exact H1|]. split; [lra|]. lra.
Qed.

Lemma overshoot : forall c k lo hi u x, In c SINGLES -> In (k, (lo, hi)) (c_bdict c) -> In k over ->
  shaped (c_unames c) u -> has u (uname k) x -> large x ->
  exists p r v, @get_bounded_params xr X c u = Ok p /\ has p k (Fin r) /\ rd hi < r /\
    @get_unbounded_params xr X c p = Ok v /\ has v (uname k) PInf.
Proof.
  intros c k lo hi u x Hc I Ik Hs Hx HL.
  assert (Hw : wfc c).
  { pose proof singles_wf as W. rewrite List.Forall_forall in W. now apply W. }
  assert (IA : In (k, (lo, hi)) ALL_BOUNDS) by (apply in_flat_map; exists c; split; [exact Hc | exact I]).
  destruct (gacts_field (N := X) c _ u Hw (gacts_single c Hw) Hs) as (p & Ep & Sp & HG).
  destruct (HG k _ I) as (x' & X1 & X2).
  assert (x' = x).
  { apply (has_unique u (uname k)); auto. unfold fields. rewrite Hs. now apply wfc_unames_nodup. }
  subst x'.
  destruct (bound_size k lo hi IA)
    as (Sl & Sh & Hlh).
  rewrite (bounded_large x lo hi HL Sl Sh) in X2.
  destruct (overshoot_facts k lo hi IA Ik) as (O1 & O2 & O3). cbv zeta in O1, O2.
  set (top := rd (rd lo + rd (rd hi - rd lo))) in *.
  destruct (unbounded_field (N := X) c p Hw Sp) as (v & Ev & _ & HU).
  destruct (HU k _ I) as (y & Y1 & Y2).
  assert (y = Fin top).
  { apply (has_unique p k); auto. unfold fields. rewrite Sp. apply Hw. }
  subst y.
  assert (St : Rabs top <= pw 9).
  { assert (Hl' := rd_abs F HF HP lo 7 ltac:(lia) Sl).
    assert (Hh' := rd_abs F HF HP hi 7 ltac:(lia) Sh).
    change (pw 7) with 128 in *. apply Rabs_le_inv in Hl'. apply Rabs_le_inv in Hh'.
    assert (Hd : Rabs (rd (rd hi - rd lo)) <= pw 8).
    { apply (rd_abs F HF HP); [lia|]. change (pw 8) with 256. apply Rabs_le. lra. }
    change (pw 8) with 256 in Hd. apply Rabs_le_inv in Hd.
    apply (rd_abs F HF HP); [lia|]. change (pw 9) with 512. apply Rabs_le. lra. }
  rewrite (unbounded_top lo hi top Sl Sh St O2 O3) in Y2.
  exists p, top, v. auto.
Qed.
End Over.
