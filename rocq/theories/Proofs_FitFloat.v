(** Floored masses in double precision. *)

From Coq Require Import Reals ZArith List Bool Lra Lia.
From Flocq Require Import Core.
From Verif Require Import Model_Num RealAux Model_Base Model_Kernels Model_Fitter Model_Float
  Spec_Fitter Spec_Float Proofs_Kernels Proofs_Float Proofs_Float2 Proofs_Float3 Proofs_Float4 Proofs_Float5 Proofs_Fitter.
Import ListNotations.
Local Open Scope R_scope.

Local Notation pw := (bpow radix2).
Local Notation X := (Num_xfl binary64 big64).
Local Notation rd := (rne (-1074) 53).
Local Notation fexp := (FLT_exp (-1074) 53).

Local Instance p53 : Prec_gt_0 53.
Proof. unfold Prec_gt_0. lia. Qed.

(** A number below half a unit in the last place is absorbed. *)
Lemma absorbed : forall P e, rd P = P -> pw 30 <= P -> 0 <= e < pw (-23) -> rd (e + P) = P.
Proof.
  intros P e HP H30 He.
  assert (HF : generic_format radix2 fexp P) by (apply (rne_fix_format (-1074) 53); [lia | exact HP]).
  pose proof (bpow_gt_0 radix2 30) as H0.
  apply Rle_antisym.
  - unfold rne. apply round_N_le_midp; [auto with typeclass_instances | exact HF |].
    rewrite succ_eq_pos by lra.
    assert (HU : pw (-22) <= ulp radix2 fexp P).
    { rewrite ulp_neq_0 by lra. apply bpow_le. unfold cexp, FLT_exp.
      assert (31 <= mag radix2 P)%Z.
      { apply mag_ge_bpow. change (31 - 1)%Z with 30%Z. rewrite Rabs_pos_eq by lra. exact H30. }
      lia. }
    change (pw (-22)) with (/ 4194304) in HU. change (pw (-23)) with (/ 8388608) in He. lra.
  - rewrite <- HP at 1. apply (rne_mono (-1074) 53); [lia | lra].
Qed.

Lemma eps_near : Rabs (rd EPSILON - EPSILON) <= pw (-53) * EPSILON.
Proof.
  unfold EPSILON.
  pose proof (rne_rel (-1074) 53 (1 / 10000000) ltac:(lia)) as H.
  rewrite Rabs_pos_eq in H by lra. apply H.
  apply Rle_trans with (pw (-30)); [apply bpow_le; lia|]. change (pw (-30)) with (/ 1073741824). lra.
Qed.

Lemma eps_size : 0 < rd EPSILON < pw (-23).
Proof.
  pose proof eps_near as H. unfold EPSILON in *. apply Rabs_le_inv in H.
  change (pw (-53)) with (/ 9007199254740992) in H. change (pw (-23)) with (/ 8388608). lra.
Qed.

Lemma log10_big : forall x, 1 <= x <= big64 -> 0 <= log10 x <= pw 10.
Proof.
  intros x Hx. assert (L10 : 1 <= ln 10).
  { rewrite <- (ln_exp 1). destruct (Rle_lt_or_eq_dec _ _ exp_le_3) as [H | H].
    - left. apply ln_increasing; [apply exp_pos | lra].
    - left. apply ln_increasing; [apply exp_pos | lra]. }
  unfold log10. split.
  - apply Rmult_le_pos; [|left; apply Rinv_0_lt_compat; lra].
    rewrite <- ln_1. destruct (proj1 Hx) as [H | H]; [left; apply ln_increasing; lra | rewrite <- H; lra].
  - assert (H1 : x <= pw 1024).
    { apply Rle_trans with (1 := proj2 Hx). unfold big64.
      apply Rle_trans with (pw 53 * pw 971); [|rewrite <- bpow_plus; apply Req_le; reflexivity].
      apply Rmult_le_compat_r; [apply bpow_ge_0 | lra]. }
    assert (H2 : ln x <= 1024).
    { apply Rle_trans with (ln (pw 1024)).
      - destruct H1 as [H1 | ->]; [left; apply ln_increasing; lra | lra].
      - rewrite bpow_exp, ln_exp. change (IZR (Zaux.radix_val radix2)) with 2.
        assert (ln 2 <= 1); [|lra].
        rewrite <- (ln_exp 1). pose proof (exp_ineq1 1 ltac:(lra)) as H.
        left. apply ln_increasing; lra. }
    change (pw 10) with 1024. apply Rmult_le_reg_r with (ln 10); [lra|].
    unfold Rdiv. rewrite Rmult_assoc, Rinv_l, Rmult_1_r by lra. nra.
Qed.

Lemma x64 : forall r k, (0 <= k <= 120)%Z -> Rabs r <= pw k -> overflow big64 (rd r) = Fin (rd r).
Proof.
  intros r k Hk H. apply (no_over big64 big64_large _ k); [lia|].
  pose proof (faithful_pow2 (-1074) 53 ltac:(lia) ltac:(lia) binary64 binary64_faithful) as HP.
  exact (rd_abs binary64 (fa_ordered _ _ _ binary64_faithful) HP r k ltac:(lia) H).
Qed.

Lemma big64_fixed : forall P, rd P = P -> 0 <= P <= big64 -> overflow big64 (rd P) = Fin P.
Proof.
  intros P E H. rewrite E. unfold overflow.
  destruct (Rltb_spec big64 P) as [[_ Q] | [-> _]]; [lra|].
  destruct (Rltb_spec P (- big64)) as [[_ Q] | [-> _]]; [lra | reflexivity].
Qed.

Lemma log10_64 : forall x, 1 <= x <= big64 -> @nlog10 xr X (Fin x) = Fin (rd (log10 x)).
Proof.
  intros x Hx. cbn [nlog10 Num_xfl xliblog].
  destruct (Rltb_spec 0 x) as [[-> _] | [_ Q]]; [|lra].
  apply (x64 (log10 x) 10); [lia|]. destruct (log10_big x Hx) as [H1 H2]. now rewrite Rabs_pos_eq.
Qed.

(** The log-masses of a finite history. *)
Lemma clipped_64 : forall g ms, let P := lib_pow10 binary64 g in
  pw 30 <= P <= big64 -> (forall m, In m ms -> m <= big64) ->
  get_clipped_log_mah_in X (map Fin ms) (Fin g)
  = map (fun m => Fin (lib_log10 binary64 (Rmax m P))) ms.
Proof.
  intros g ms P HP Hm. unfold get_clipped_log_mah_in. rewrite map_map. apply map_ext_in.
  intros m Im. specialize (Hm m Im).
  assert (EP : rd P = P) by (apply (rne_id (-1074) 53); apply (rne_format (-1074) 53); lia).
  assert (HB : 1 <= pw 30) by (change (pw 30) with 1073741824; lra).
  assert (E1 : @npow10 xr X (Fin g) = Fin P).
  { cbn [npow10 Num_xfl xlib]. change (lib_pow10 binary64 g) with P. rewrite <- EP at 1.
    apply big64_fixed; [exact EP | lra]. }
  rewrite E1. cbn [nadd nconst Num_xfl xadd xround].
  change (rnd binary64) with rd. destruct eps_size as [S1 S2].
  assert (E2 : overflow big64 (rd EPSILON) = Fin (rd EPSILON)).
  { apply (x64 EPSILON 0); [lia|]. change (pw 0) with 1. unfold EPSILON. rewrite Rabs_pos_eq; lra. }
  rewrite E2. cbn [xadd xround]. change (rnd binary64) with rd. rewrite (absorbed P (rd EPSILON) EP) by lra.
  assert (E3 : overflow big64 P = Fin P) by (rewrite <- EP at 1; apply big64_fixed; [exact EP | lra]).
  rewrite E3, xleb_fin. unfold jwhere, Rleb.
  destruct (Rle_dec m P) as [L | L].
  - rewrite Rmax_right by exact L. apply log10_64. lra.
  - rewrite Rmax_left by lra. apply log10_64. lra.
Qed.

(** ** Powers of ten *)

Lemma pow10_Z : forall n, (0 <= n)%Z -> pow10 (IZR n) = IZR (10 ^ n).
Proof.
  intros n Hn. rewrite <- (Z2Nat.id n Hn). generalize (Z.to_nat n). clear. intros n.
  induction n as [|n IH].
  - change (Z.of_nat 0) with 0%Z. unfold pow10. rewrite Rmult_0_l, exp_0. reflexivity.
  - rewrite Nat2Z.inj_succ, Z.pow_succ_r by lia. unfold Z.succ. rewrite plus_IZR, pow10_plus, IH, pow10_1, mult_IZR. ring.
Qed.

Lemma pow10_machine : forall n, (0 <= n <= 22)%Z -> rd (IZR (10 ^ n)) = IZR (10 ^ n).
Proof.
  intros n Hn. apply (rne_id (-1074) 53).
  replace (IZR (10 ^ n)) with (IZR (5 ^ n) * pw n).
  - apply (format_F2R (-1074) 53); [|lia].
    rewrite Z.abs_eq by (apply Z.pow_nonneg; lia).
    apply Z.le_lt_trans with (5 ^ 22)%Z; [apply Z.pow_le_mono_r; lia | reflexivity].
  - change 10%Z with (5 * 2)%Z. rewrite Z.pow_mul_l, mult_IZR. f_equal.
    symmetry. apply (IZR_Zpower radix2). lia.
Qed.

Lemma pow10_range : forall n, (10 <= n <= 22)%Z -> pw 30 <= IZR (10 ^ n) <= big64.
Proof.
  intros n Hn. split.
  - change (pw 30) with (IZR (2 ^ 30)). apply IZR_le.
    apply Z.le_trans with (10 ^ 10)%Z; [vm_compute; discriminate | apply Z.pow_le_mono_r; lia].
  - apply Rle_trans with (pw 120); [|exact big64_large].
    apply Rle_trans with (IZR (10 ^ 22)); [apply IZR_le, Z.pow_le_mono_r; lia|].
    apply Rle_trans with (pw 100); [|apply bpow_le; lia].
    change (pw 100) with (IZR (2 ^ 100)). apply IZR_le. vm_compute. discriminate.
Qed.

Lemma lib_pow10_64 : forall n, (0 <= n <= 22)%Z -> lib_pow10 binary64 (IZR n) = IZR (10 ^ n).
Proof.
  intros n Hn. change (lib_pow10 binary64 (IZR n)) with (rd (pow10 (IZR n))).
  rewrite pow10_Z by lia. now apply pow10_machine.
Qed.

Lemma lib_log10_64 : forall n, (0 <= n <= 22)%Z -> lib_log10 binary64 (IZR (10 ^ n)) = IZR n.
Proof.
  intros n Hn. change (lib_log10 binary64 (IZR (10 ^ n))) with (rd (log10 (IZR (10 ^ n)))).
  rewrite <- pow10_Z, log10_pow10 by lia. apply (rne_int (-1074) 53); lia.
Qed.

Lemma clipped_power : forall n ms, (10 <= n <= 22)%Z -> (forall m, In m ms -> m <= big64) ->
  exists ys, get_clipped_log_mah_in X (map Fin ms) (Fin (IZR n)) = map Fin ys /\ length ys = length ms /\
    forall i m y, nth_error ms i = Some m -> nth_error ys i = Some y ->
      (m <= IZR (10 ^ n) -> y = IZR n) /\ (IZR (10 ^ n) < m -> y = lib_log10 binary64 m /\ IZR n <= y).
Proof.
  intros n ms Hn Hm. pose proof (pow10_range n Hn) as HR.
  pose proof (clipped_64 (IZR n) ms) as H. cbv zeta in H. rewrite (lib_pow10_64 n) in H by lia.
  exists (map (fun m => lib_log10 binary64 (Rmax m (IZR (10 ^ n)))) ms).
  split; [rewrite map_map; apply H; auto|]. split; [apply map_length|].
  intros i m y Hi Hy. rewrite nth_error_map, Hi in Hy. cbn in Hy. injection Hy as <-. split; intros HC.
  - rewrite Rmax_right by exact HC. apply lib_log10_64. lia.
  - rewrite Rmax_left by lra. split; [reflexivity|].
    rewrite <- (lib_log10_64 n) by lia.
    pose proof (bpow_gt_0 radix2 30).
    apply (oa_log10_mono _ (fa_ordered _ _ _ binary64_faithful)); lra.
Qed.

(** Selecting by a mask. *)
Lemma select_subsequence : forall {A B} (f : A -> bool) (h : A -> B) l,
  exists s, subsequence_of (fun a => f a = true) l s /\ select (map f l) (map h l) = map h s.
Proof.
  intros A B f h l. induction l as [|a l (s & H1 & H2)].
  - exists []. split; [apply sub_nil | reflexivity].
  - unfold select in *. cbn [map combine filter fst]. destruct (f a) eqn:E.
    + exists (a :: s). split; [now apply sub_keep|]. cbn [map snd]. now f_equal.
    + exists s. split; [apply sub_drop; [congruence | exact H1] | exact H2].
Qed.

(** ** A zero mass without a floor *)

Lemma ulp_7 : ulp radix2 fexp 7 = pw (-50).
Proof.
  rewrite ulp_neq_0 by lra. f_equal. unfold cexp.
  replace (mag radix2 7 : Z) with 3%Z; [reflexivity|].
  symmetry. apply mag_unique_pos. change (pw (3 - 1)) with 4. change (pw 3) with 8. lra.
Qed.

Lemma rd_7 : forall y, Rabs (y - 7) <= pw (-52) -> rd y = 7.
Proof.
  intros y Hy. apply Rabs_le_inv in Hy. change (pw (-52)) with (/ 4503599627370496) in Hy.
  pose proof (rne_int (-1074) 53 ltac:(lia) ltac:(lia) 7 ltac:(lia)) as H7. cbn [IZR] in H7.
  assert (HF : generic_format radix2 fexp 7) by (apply (rne_fix_format (-1074) 53); [lia | exact H7]).
  pose proof ulp_7 as HU. change (pw (-50)) with (/ 1125899906842624) in HU.
  apply Rle_antisym; unfold rne.
  - apply round_N_le_midp; [auto with typeclass_instances | exact HF |].
    rewrite succ_eq_pos, HU by lra. lra.
  - apply round_N_ge_midp; [auto with typeclass_instances | exact HF |].
    rewrite pred_eq_pos by lra. unfold pred_pos.
    replace (mag radix2 7 : Z) with 3%Z.
    2:{ symmetry. apply mag_unique_pos. change (pw (3 - 1)) with 4. change (pw 3) with 8. lra. }
    change (pw (3 - 1)) with 4. rewrite Req_bool_false by lra. rewrite HU. lra.
Qed.

Lemma log10_eps : log10 EPSILON = - 7.
Proof.
  assert (H : pow10 (IZR 7 + (- (7))) = 1) by (replace (IZR 7 + - (7)) with 0 by (cbn; ring);
    unfold pow10; rewrite Rmult_0_l, exp_0; reflexivity).
  rewrite pow10_plus, pow10_Z in H by lia. change (IZR (10 ^ 7)) with 10000000 in H.
  replace EPSILON with (pow10 (- (7))) by (unfold EPSILON; lra). apply log10_pow10.
Qed.

Lemma ln10_ge_1 : 1 <= ln 10.
Proof. rewrite <- (ln_exp 1). pose proof exp_le_3. left. apply ln_increasing; [apply exp_pos | lra]. Qed.

Lemma ln_below : forall y, 0 < y -> ln y <= y - 1.
Proof. intros y Hy. pose proof (exp_ineq1_le (ln y)) as H. rewrite exp_ln in H by exact Hy. lra. Qed.

Lemma eps_log : rd (log10 (rd EPSILON)) = -7.
Proof.
  pose proof eps_near as HN. pose proof eps_size as [HS _].
  pose proof log10_eps as HL. set (e := rd EPSILON) in *.
  assert (HE : 0 < EPSILON) by (unfold EPSILON; lra).
  assert (HQ : 0 < e / EPSILON) by (apply Rdiv_lt_0_compat; lra).
  assert (HD : Rabs (e / EPSILON - 1) <= pw (-53)).
  { replace (e / EPSILON - 1) with ((e - EPSILON) / EPSILON) by (field; lra).
    unfold Rdiv. rewrite Rabs_mult, (Rabs_pos_eq (/ EPSILON)) by (left; now apply Rinv_0_lt_compat).
    apply Rmult_le_reg_r with EPSILON; [exact HE|].
    rewrite Rmult_assoc, Rinv_l, Rmult_1_r by lra. exact HN. }
  set (q := e / EPSILON) in *.
  assert (Hq : e = EPSILON * q) by (unfold q; field; lra).
  assert (HG : log10 e = - 7 + ln q / ln 10).
  { rewrite <- HL. unfold log10. rewrite Hq, ln_mult by assumption. field. apply ln10_neq0. }
  apply Rabs_le_inv in HD. change (pw (-53)) with (/ 9007199254740992) in HD.
  assert (HT : Rabs (ln q) <= pw (-52)).
  { change (pw (-52)) with (/ 4503599627370496). apply Rabs_le. split.
    - assert (H : ln (/ q) <= / q - 1) by (apply ln_below; now apply Rinv_0_lt_compat).
      rewrite ln_Rinv in H by exact HQ.
      assert (/ q <= 1 + / 4503599627370496); [|lra].
      apply Rmult_le_reg_r with q; [exact HQ|]. rewrite Rinv_l by lra. nra.
    - pose proof (ln_below q HQ). lra. }
  assert (HT' : Rabs (ln q / ln 10) <= pw (-52)).
  { pose proof ln10_ge_1. unfold Rdiv. rewrite Rabs_mult, (Rabs_pos_eq (/ ln 10)).
    - apply Rle_trans with (Rabs (ln q) * 1); [|lra]. apply Rmult_le_compat_l; [apply Rabs_pos|].
      rewrite <- Rinv_1. apply Rinv_le_contravar; lra.
    - left. apply Rinv_0_lt_compat. lra. }
  rewrite HG. replace (- 7 + ln q / ln 10) with (- (7 - ln q / ln 10)) by ring.
  unfold rne. rewrite round_NE_opp. fold (rne (-1074) 53 (7 - ln q / ln 10)).
  rewrite rd_7; [lra|]. replace (7 - ln q / ln 10 - 7) with (- (ln q / ln 10)) by ring.
  now rewrite Rabs_Ropp.
Qed.

Lemma clipped_zero : forall ms, (forall m, In m ms -> 0 <= m <= big64) ->
  forall i, nth_error ms i = Some 0 ->
  nth_error (get_clipped_log_mah_in X (map Fin ms) MInf) i = Some (Fin (-7)).
Proof.
  intros ms Hm i Hi. unfold get_clipped_log_mah_in. rewrite map_map, nth_error_map, Hi. cbn [option_map].
  f_equal. change (@npow10 xr X MInf) with (Fin 0). rewrite xleb_fin. unfold jwhere, Rleb.
  destruct (Rle_dec 0 0) as [_ | Q]; [|lra].
  cbn [nadd nconst Num_xfl xadd xround]. change (rnd binary64) with rd.
  assert (E2 : overflow big64 (rd EPSILON) = Fin (rd EPSILON)).
  { apply (x64 EPSILON 0); [lia|]. change (pw 0) with 1. unfold EPSILON. rewrite Rabs_pos_eq; lra. }
  rewrite E2. cbn [xadd xround]. change (rnd binary64) with rd. rewrite Rplus_0_r.
  assert (E3 : rd (rd EPSILON) = rd EPSILON) by (apply (rne_id (-1074) 53); apply (rne_format (-1074) 53); lia).
  rewrite E3, E2. cbn [nlog10 Num_xfl xliblog]. pose proof eps_size as [HS _].
  destruct (Rltb_spec 0 (rd EPSILON)) as [[-> _] | [_ Q]]; [|lra].
  change (lib_log10 binary64 (rd EPSILON)) with (rd (log10 (rd EPSILON))). rewrite eps_log.
  apply (no_over big64 big64_large _ 3); [lia|]. change (pw 3) with 8. rewrite Rabs_left; lra.
Qed.

(** ** Selection *)

(** In exact arithmetic the cut at [lgm_min] removes nothing. *)
Lemma cut_without_effect : forall ts ms g cut tmin,
  let lm := get_clipped_log_mah (map Fin ms) (Fin g) in
  get_target_data ts lm (Fin g) cut tmin = get_target_data ts lm MInf cut tmin.
Proof.
  intros ts ms g cut tmin lm. unfold get_target_data, get_target_data_in.
  destruct (getlast lm) as [l0|]; cbn [bind]; [|reflexivity]. cbv zeta.
  assert (HM : map (fun tl => xltb (xsub l0 cut) (snd tl) && xltb (Fin g) (snd tl) && xleb tmin (fst tl))%bool
      (combine ts lm)
    = map (fun tl => xltb (xsub l0 cut) (snd tl) && xltb MInf (snd tl) && xleb tmin (fst tl))%bool
      (combine ts lm)).
  { apply map_ext_in. intros [t x] I. apply in_combine_r in I. cbn [fst snd]. unfold lm in I.
    change (Fin g) with (lgm_arg (Some g)) in I. rewrite clipped_fin, map_map in I.
    apply in_map_iff in I as (m & <- & _).
    assert (H : xltb (Fin g) (Fin (floored_logmass (mass_floor (Some g)) m)) = true).
    { cbn [xltb mass_floor]. apply Rltb_true. unfold floored_logmass. pose proof (pow10_pos g).
      destruct (Rle_dec m (pow10 g)) as [H1 | H1]; apply log10_gt_pow10; lra. }
    rewrite H. reflexivity. }
  cbn [nsub Num_xr]. rewrite HM. reflexivity.
Qed.

(** In double precision it removes what the documentation says. *)
Lemma cut_below : forall n ts ms cut tmin lt lm, (10 <= n <= 22)%Z -> (forall m, In m ms -> m <= big64) ->
  length ts = length ms ->
  get_target_data_in X ts (get_clipped_log_mah_in X (map Fin ms) (Fin (IZR n))) (Fin (IZR n)) cut tmin
  = Ok (lt, lm) ->
  exists keep sel, subsequence_of keep (combine ts ms) sel /\
    (forall t m, keep (t, m) -> IZR (10 ^ n) < m) /\
    lt = map (fun tm => @nlog10 xr X (fst tm)) sel /\
    lm = maximum_accumulate (map (fun tm => Fin (lib_log10 binary64 (snd tm))) sel).
Proof.
  intros n ts ms cut tmin lt lm Hn Hm HL H.
  pose proof (pow10_range n Hn) as HR.
  pose proof (clipped_64 (IZR n) ms) as HC. cbv zeta in HC. rewrite (lib_pow10_64 n) in HC by lia.
  rewrite HC in H by auto. clear HC.
  set (P := IZR (10 ^ n)) in *.
  set (h := fun m => Fin (lib_log10 binary64 (Rmax m P))) in *.
  unfold get_target_data_in in H. destruct (getlast (map h ms)) as [l0|] eqn:El; [|discriminate].
  cbn [bind] in H. cbv zeta in H.
  match type of H with Ok (?a, ?b) = Ok (?c, ?d) =>
    assert (Hlt : a = c) by congruence; assert (Hlm : b = d) by congruence end. clear H.
  set (f := fun tm : xr * R => (xltb (@nsub xr X l0 cut) (h (snd tm)) && xltb (Fin (IZR n)) (h (snd tm))
    && xleb tmin (fst tm))%bool).
  assert (EC : forall (k : xr * xr -> bool), map k (combine ts (map h ms))
    = map (fun tm => k (fst tm, h (snd tm))) (combine ts ms)).
  { intros k. clear - HL. revert ms HL. induction ts as [|t ts IH]; intros [|m ms] HL; try discriminate; [reflexivity|].
    cbn [combine map fst snd]. f_equal. apply IH. now injection HL. }
  rewrite EC in Hlt, Hlm. cbn [fst snd] in Hlt, Hlm.
  change (fun tm : xr * R => (xltb (@nsub xr X l0 cut) (h (snd tm)) && xltb (Fin (IZR n)) (h (snd tm))
    && xleb tmin (fst tm))%bool) with f in Hlt, Hlm.
  assert (ET : map (@nlog10 xr X) ts = map (fun tm => @nlog10 xr X (fst tm)) (combine ts ms)).
  { clear - HL. revert ms HL. induction ts as [|t ts IH]; intros [|m ms] HL; try discriminate; [reflexivity|].
    cbn [combine map fst]. f_equal. apply IH. now injection HL. }
  assert (EM : map h ms = map (fun tm => h (snd tm)) (combine ts ms)).
  { clear - HL. revert ts HL. induction ms as [|m ms IH]; intros [|t ts] HL; try discriminate; [reflexivity|].
    cbn [combine map snd]. f_equal. apply IH. now injection HL. }
  rewrite ET in Hlt. rewrite EM in Hlm.
  assert (HK : forall t m, f (t, m) = true -> P < m).
  { intros t m Hf. unfold f in Hf. apply andb_prop in Hf as [Hf _]. apply andb_prop in Hf as [_ Hf].
    cbn [snd] in Hf. destruct (Rlt_or_le P m) as [L | L]; [exact L|]. exfalso.
    unfold h in Hf. rewrite Rmax_right in Hf by exact L. unfold P in Hf. rewrite lib_log10_64 in Hf by lia.
    cbn [xltb] in Hf. apply Rltb_true in Hf. lra. }
  destruct (select_subsequence f (fun tm => @nlog10 xr X (fst tm)) (combine ts ms)) as (s & S1 & S2).
  destruct (select_subsequence f (fun tm => h (snd tm)) (combine ts ms)) as (s' & S1' & S2').
  assert (s' = s) by exact (subsequence_unique _ _ _ _ S1' S1). subst s'.
  exists (fun tm => f tm = true), s. split; [exact S1|]. split; [exact HK|].
  split; [rewrite <- Hlt; exact S2|]. rewrite <- Hlm, S2'. f_equal.
  apply map_ext_in. intros [t m] I. cbn [snd]. unfold h. rewrite Rmax_left; [reflexivity|].
  assert (HS : forall a, In a s -> f a = true).
  { clear - S1. induction S1 as [|a l s Ha _ IH|a l s Ha _ IH]; intros b Hb; [destruct Hb | | auto].
    destruct Hb as [<- | Hb]; auto. }
  left. apply (HK t). now apply HS.
Qed.
