(** Ranges of computed quantities in machine arithmetic, and unbounding without NaN. *)

From Coq Require Import Reals ZArith String List Bool Arith Lra Lia.
From Flocq Require Import Core.
From Verif Require Import Model_Num Model_Kernels Model_Base Model_Utils Model_PopBase
  Model_Float Spec_Float RealAux Proofs_Float Proofs_Float2 Proofs_Float3
  Proofs_Float4 Proofs_Float5 Proofs_PopFloat2.
Import ListNotations.
Local Open Scope R_scope.

Section Box.
  Variables emin prec : Z.
  Hypothesis Hprec : (20 <= prec)%Z.
  Hypothesis Hemin : (emin <= - prec - 100)%Z.
  Variable F : arith.
  Hypothesis HA : faithful emin prec F.
  Variable big : R.
  Hypothesis HB : bpow radix2 120 <= big.

  Local Notation X := (Num_xfl F big).
  Local Notation pw := (bpow radix2).
  Local Notation rd := (rnd F).
  Let HF := fa_ordered _ _ _ HA.
  Let HP := faithful_pow2 emin prec Hprec Hemin F HA.

  (** The finite machine number [x] lies between [a] and [b]. *)
  Definition box (x : xr) (a b : R) : Prop := exists r, x = Fin r /\ machine F r /\ a <= r <= b.

  (** One rounding, of numbers up to 127. *)
  Definition dlt : R := 1 / 5000.

  Lemma rd_dlt : forall r, Rabs r <= 127 -> Rabs (rd r - r) <= dlt.
  Proof.
    intros r H. pose proof (rd_err emin prec Hprec Hemin F HA r 127 H ltac:(lra)) as E.
    destruct (u_bound prec Hprec) as [U0 U1].
    apply Rle_trans with (1 := E). unfold dlt. nra.
  Qed.

  Lemma box_weaken : forall x a b a' b', box x a b -> a' <= a -> b <= b' -> box x a' b'.
  Proof. intros x a b a' b' (r & E & M & B) H1 H2. exists r. split; [exact E|]. split; [exact M | lra]. Qed.

  Lemma box_fin : forall r, machine F r -> box (Fin r) r r.
  Proof. intros r M. exists r. split; [reflexivity|]. split; [exact M | lra]. Qed.

  Lemma box_not_nan : forall x a b, box x a b -> x <> NaN.
  Proof. intros x a b (r & -> & _). discriminate. Qed.

  Lemma box_round : forall r a b, a <= r <= b -> -127 <= a -> b <= 127 ->
    box (xround F big (Fin r)) (a - dlt) (b + dlt).
  Proof.
    intros r a b B La Lb. assert (A : Rabs r <= 127) by (apply Rabs_le; lra).
    pose proof (rd_dlt r A) as E. apply Rabs_le_inv in E.
    assert (S : Rabs (rd r) <= pw 7).
    { apply (rd_abs F HF HP); [lia|]. change (pw 7) with 128. lra. }
    exists (rd r). split; [|split; [apply (oa_idem F HF) | lra]].
    cbn [xround]. apply (no_over big HB (rd r) 7); [lia | exact S].
  Qed.

  Lemma box_const : forall r, Rabs r <= 127 -> box (@nconst xr X r) (r - dlt) (r + dlt).
  Proof. intros r H. apply Rabs_le_inv in H. apply (box_round r r r); lra. Qed.

  Lemma box_const_exact : forall r, Rabs r <= 127 -> machine F r -> box (@nconst xr X r) r r.
  Proof.
    intros r H M. destruct (box_const r H) as (s & E & _). exists r. split; [|split; [exact M | lra]].
    assert (S : Rabs r <= pw 7) by (change (pw 7) with 128; lra).
    pose proof (pconst emin prec Hprec Hemin F HA big HB r S) as Q. rewrite M in Q. exact Q.
  Qed.

  Lemma box_add : forall x y a b c d, box x a b -> box y c d -> -127 <= a + c -> b + d <= 127 ->
    box (@nadd xr X x y) (a + c - dlt) (b + d + dlt).
  Proof.
    intros x y a b c d (r & -> & _ & B1) (s & -> & _ & B2) L1 L2. cbn [nadd Num_xfl xadd].
    apply box_round; lra.
  Qed.

  Lemma box_sub : forall x y a b c d, box x a b -> box y c d -> -127 <= a - d -> b - c <= 127 ->
    box (@nsub xr X x y) (a - d - dlt) (b - c + dlt).
  Proof.
    intros x y a b c d (r & -> & _ & B1) (s & -> & _ & B2) L1 L2. cbn [nsub Num_xfl xsub xneg xadd].
    change (r + - s) with (r - s). apply box_round; lra.
  Qed.

  Lemma box_mul : forall x y a b c d lo hi, box x a b -> box y c d ->
    (forall r s, a <= r <= b -> c <= s <= d -> lo <= r * s <= hi) -> -127 <= lo -> hi <= 127 ->
    box (@nmul xr X x y) (lo - dlt) (hi + dlt).
  Proof.
    intros x y a b c d lo hi (r & -> & _ & B1) (s & -> & _ & B2) HM L1 L2. cbn [nmul Num_xfl xmul].
    apply box_round; [now apply HM | exact L1 | exact L2].
  Qed.

  (** A sigmoid lies between its end values, up to three roundings. *)
  Lemma box_sigmoid : forall x x0 k lo hi a0 b0 ak bk a b c d m M, x <> NaN -> box x0 a0 b0 ->
    box k ak bk -> 0 < ak -> box lo a b -> box hi c d ->
    m <= a -> m <= c -> b <= M -> d <= M -> -60 <= m -> M <= 60 ->
    box (@sigmoid xr X x x0 k lo hi) (m - 3 * dlt) (M + 3 * dlt).
  Proof.
    intros x x0 k lo hi a0 b0 ak bk a b c d m M Hx (x1 & -> & _) (k1 & -> & _ & Bk) Hk
      (r & -> & Mr & Br) (s & -> & Ms & Bs) H1 H2 H3 H4 H5 H6. unfold sigmoid.
    destruct (xlogistic_range F HF big HB _ (arg_not_nan F big x x1 k1 Hx ltac:(lra))) as (g & Hg & ->).
    rewrite (pramp emin prec Hprec Hemin F HA big HB);
      [|change (pw 7) with 128; apply Rabs_le; lra|change (pw 7) with 128; apply Rabs_le; lra|exact Hg].
    exists (ramp F r s g). split; [reflexivity|]. split; [apply (oa_idem F HF)|].
    unfold ramp. unfold dlt.
    pose proof (rd_dlt (s - r) ltac:(apply Rabs_le; lra)) as E1. apply Rabs_le_inv in E1. unfold dlt in E1.
    set (w := rd (s - r)) in *.
    assert (Bw : -121 <= w <= 121) by lra.
    assert (Bg : -121 <= w * g <= 121) by nra.
    pose proof (rd_dlt (w * g) ltac:(apply Rabs_le; lra)) as E2. apply Rabs_le_inv in E2. unfold dlt in E2.
    set (q := rd (w * g)) in *.
    assert (Bc : m <= r + (s - r) * g <= M) by nra.
    assert (Bd : - (1 / 5000) <= w * g - (s - r) * g <= 1 / 5000) by nra.
    pose proof (rd_dlt (r + q) ltac:(apply Rabs_le; lra)) as E3. apply Rabs_le_inv in E3. unfold dlt in E3.
    lra.
  Qed.

  (** ** Clipping *)

  Lemma xmaximum_R : forall r s, @nmaximum xr X (Fin r) (Fin s) = Fin (Rmax r s).
  Proof.
    intros r s. unfold nmaximum. cbn [nleb Num_xfl Model_Num.xleb]. unfold Rmax, Rleb.
    destruct (Rle_dec s r); destruct (Rle_dec r s); try reflexivity; [f_equal; lra | lra].
  Qed.

  Lemma xminimum_R : forall r s, @nminimum xr X (Fin r) (Fin s) = Fin (Rmin r s).
  Proof.
    intros r s. unfold nminimum. cbn [nleb Num_xfl Model_Num.xleb]. unfold Rmin, Rleb.
    destruct (Rle_dec r s); destruct (Rle_dec s r); try reflexivity; lra.
  Qed.

  Lemma box_max : forall x y a b c d, box x a b -> box y c d ->
    box (@nmaximum xr X x y) (Rmax a c) (Rmax b d).
  Proof.
    intros x y a b c d (r & -> & Mr & Br) (s & -> & Ms & Bs). rewrite xmaximum_R.
    exists (Rmax r s). split; [reflexivity|]. split.
    - unfold Rmax. destruct (Rle_dec r s); assumption.
    - split; [apply Rmax_lub; [apply Rle_trans with r; [lra | apply Rmax_l] | apply Rle_trans with s; [lra | apply Rmax_r]]|].
      apply Rmax_lub; [apply Rle_trans with b; [lra | apply Rmax_l] | apply Rle_trans with d; [lra | apply Rmax_r]].
  Qed.

  Lemma box_clip : forall x lo hi a b c c' d d', box x a b -> box lo c c' -> box hi d d' ->
    box (@clip xr X x lo hi) (Rmin (Rmax a c) d) (Rmin (Rmax b c') d').
  Proof.
    intros x lo hi a b c c' d d' HX HL (s & -> & Ms & Bs). unfold clip.
    destruct (box_max x lo a b c c' HX HL) as (r & -> & Mr & Br). rewrite xminimum_R.
    exists (Rmin r s). split; [reflexivity|]. split.
    - unfold Rmin. destruct (Rle_dec r s); assumption.
    - split; [apply Rmin_glb; [apply Rle_trans with (Rmax a c); [apply Rmin_l | lra] | apply Rle_trans with d; [apply Rmin_r | lra]]|].
      apply Rmin_glb; [apply Rle_trans with r; [apply Rmin_l | lra] | apply Rle_trans with s; [apply Rmin_r | lra]].
  Qed.

  (** ** Unbounding *)

  Lemma round_not_nan : forall x, x <> NaN -> xround F big x <> NaN.
  Proof.
    intros [r | | |] H; cbn [xround]; try discriminate; [apply overflow_not_nan | now destruct H].
  Qed.

  Lemma add_not_nan : forall x r, x <> NaN -> @nadd xr X x (Fin r) <> NaN.
  Proof.
    intros x r H. cbn [nadd Num_xfl]. apply round_not_nan. destruct x; cbn [xadd]; try discriminate. now destruct H.
  Qed.

  (** A machine number of the closed interval is mapped to a number or an infinity. *)
  Lemma inverse_not_nan : forall y x0 k lo hi, 0 < k -> lo <= y <= hi -> lo + 1 <= hi ->
    -60 <= lo -> hi <= 60 -> machine F lo -> machine F hi -> machine F y ->
    @inverse_sigmoid xr X (Fin y) (Fin x0) (Fin k) (Fin lo) (Fin hi) <> NaN.
  Proof.
    intros y x0 k lo hi Hk Hy Hl L1 L2 Ml Mh My. unfold inverse_sigmoid.
    assert (S : forall r, Rabs r <= 127 -> xround F big (Fin r) = Fin (rd r)).
    { intros r Hr. cbn [xround]. apply (no_over big HB _ 7); [lia|]. apply (rd_abs F HF HP); [lia|].
      change (pw 7) with 128. lra. }
    cbn [nsub ndiv nlog nconst Num_xfl xsub xneg xadd].
    change (hi + - lo) with (hi - lo). change (y + - lo) with (y - lo).
    rewrite (S (hi - lo)) by (apply Rabs_le; lra). rewrite (S (y - lo)) by (apply Rabs_le; lra).
    rewrite (S 1) by (rewrite Rabs_R1; lra). rewrite (oa_one F HF).
    set (w := rd (hi - lo)). set (d := rd (y - lo)).
    assert (W : 0 < w).
    { apply Rlt_le_trans with 1; [lra|]. apply (rd_ge F HF); [apply (oa_one F HF) | lra]. }
    assert (D : 0 <= d <= w).
    { split; [apply (rd_nonneg F HF); lra|]. apply (oa_mono F HF). lra. }
    assert (Q : exists q, xround F big (xdiv (Fin w) (Fin d)) = q /\ (q = PInf \/ exists r, q = Fin r /\ 1 <= r)).
    { eexists. split; [reflexivity|]. cbn [xdiv]. destruct (Req_EM_T d 0) as [E|E].
      - assert (K : Reqb d 0 = true) by (unfold Reqb; destruct (Req_EM_T d 0); [reflexivity | contradiction]).
        assert (K' : Reqb w 0 = false) by (unfold Reqb; destruct (Req_EM_T w 0); [lra | reflexivity]).
        rewrite K, K'. destruct (Rltb_spec 0 w) as [[-> _] | [_ ?]]; [now left | lra].
      - assert (K : Reqb d 0 = false) by (unfold Reqb; destruct (Req_EM_T d 0); [contradiction | reflexivity]).
        rewrite K.
        assert (V : 1 <= rd (w / d)).
        { apply (rd_ge F HF); [apply (oa_one F HF)|]. apply Rmult_le_reg_r with d; [lra|].
          unfold Rdiv. rewrite Rmult_assoc, Rinv_l by exact E. lra. }
        cbn [xround]. unfold overflow. destruct (Rltb_spec big (rd (w / d))) as [[-> _] | [-> _]]; [now left|].
        pose proof (bpow_gt_0 radix2 120).
        destruct (Rltb_spec (rd (w / d)) (- big)) as [[_ ?] | [-> _]]; [lra|].
        right. exists (rd (w / d)). split; [reflexivity | exact V]. }
    destruct Q as (q & -> & Hq).
    assert (Z : forall x, x <> NaN -> xround F big (xadd (Fin x0) (xneg (xround F big (xdiv x (Fin k))))) <> NaN).
    { intros x Hx. apply round_not_nan.
      assert (V : xround F big (xdiv x (Fin k)) <> NaN).
      { assert (K : Reqb k 0 = false) by (unfold Reqb; destruct (Req_EM_T k 0); [lra | reflexivity]).
        apply round_not_nan. destruct x as [r | | |]; cbn [xdiv]; [| | |now destruct Hx];
          unfold xscale_inf; rewrite !K; try discriminate; destruct (Rltb 0 k); discriminate. }
      destruct (xround F big (xdiv x (Fin k))); cbn; try discriminate. now destruct V. }
    destruct Hq as [-> | (r & -> & Hr)].
    - cbn [xsub xneg xadd xround xliblog xlog_gen]. apply Z. discriminate.
    - apply Z. cbn [xsub xneg xadd xround]. change (r + Ropp 1) with (r - 1). unfold overflow.
      destruct (Rltb_spec big (rd (r - 1))) as [[-> _] | [-> _]]; [discriminate|].
      assert (P : 0 <= rd (r - 1)) by (apply (rd_nonneg F HF); lra).
      pose proof (bpow_gt_0 radix2 120).
      destruct (Rltb_spec (rd (r - 1)) (- big)) as [[_ ?] | [-> _]]; [lra|].
      cbn [xliblog xlog_gen]. destruct (Rltb 0 (rd (r - 1))) eqn:E; [apply overflow_not_nan|].
      unfold Reqb. destruct (Req_EM_T (rd (r - 1)) 0) as [_|N]; [discriminate|].
      destruct (Rltb_spec 0 (rd (r - 1))) as [[E' _] | [_ ?]]; [congruence | lra].
  Qed.
End Box.
