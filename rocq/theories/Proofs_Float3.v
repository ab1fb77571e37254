(** With infinities, NaN and overflow: the kernels stay finite on legal inputs, so
    the finite reading [Num_fl] is what the machine computes. *)

From Coq Require Import Reals ZArith Lra Lia List.
From Flocq Require Import Core.
From Verif Require Import Model_Num Model_Kernels Model_Float Spec_Kernels Spec_Float RealAux
  Proofs_Float Proofs_Float2.
Local Open Scope R_scope.

Section Finite.
  Variable F : arith.
  Hypothesis HF : ordered_arith F.
  Variable big : R.
  Hypothesis HP : forall k, (-100 <= k <= 120)%Z -> machine F (bpow radix2 k).
  Hypothesis HB : bpow radix2 120 <= big.

  Local Notation pw := (bpow radix2).
  Local Notation rd := (rnd F).
  Local Notation X := (Num_xfl F big).

  Lemma pw_le : forall a b, (a <= b)%Z -> pw a <= pw b.
  Proof. intros. now apply bpow_le. Qed.

  Lemma pw_pos : forall a, 0 < pw a.
  Proof. intros. apply bpow_gt_0. Qed.

  Lemma pw_double : forall a, pw (a + 1) = 2 * pw a.
  Proof. intros a. rewrite bpow_plus. change (pw 1) with 2. ring. Qed.

  Lemma rd_abs : forall r k, (-100 <= k <= 120)%Z -> Rabs r <= pw k -> Rabs (rd r) <= pw k.
  Proof.
    intros r k Hk H. pose proof (HP k Hk) as HM. apply Rabs_le_inv in H. apply Rabs_le.
    split; [apply (rd_ge F HF); [now apply (oa_neg F HF) | lra] | apply (rd_le F HF); [exact HM | lra]].
  Qed.

  Lemma no_over : forall r k, (k <= 120)%Z -> Rabs r <= pw k -> overflow big r = Fin r.
  Proof.
    intros r k Hk H. pose proof (pw_le k 120 Hk). apply Rabs_le_inv in H. unfold overflow.
    destruct (Rltb_spec big r) as [[_ H1] | [-> H1]]; [lra|].
    destruct (Rltb_spec r (- big)) as [[_ H2] | [-> H2]]; [lra|]. reflexivity.
  Qed.

  (** [x] is the finite machine result [r], of size at most [2^k]. *)
  Definition fine (x : xr) (r : R) (k : Z) : Prop := x = Fin r /\ Rabs r <= pw k.

  Lemma fine_round : forall r k, (-100 <= k <= 120)%Z -> Rabs r <= pw k ->
    fine (xround F big (Fin r)) (rd r) k.
  Proof.
    intros r k Hk H. split; [|now apply rd_abs].
    cbn [xround]. apply no_over with k; [lia | now apply rd_abs].
  Qed.

  Lemma fine_const : forall r k, (-100 <= k <= 120)%Z -> Rabs r <= pw k ->
    fine (@nconst xr X r) (@nconst R (Num_fl F) r) k.
  Proof. exact fine_round. Qed.

  Lemma fine_add : forall x y r s a b k, fine x r a -> fine y s b ->
    (a < k)%Z -> (b < k)%Z -> (-100 <= k <= 120)%Z ->
    fine (@nadd xr X x y) (@nadd R (Num_fl F) r s) k.
  Proof.
    intros x y r s a b k [-> Hr] [-> Hs] Ha Hb Hk. cbn [nadd Num_xfl Num_fl xadd].
    apply fine_round; [exact Hk|].
    pose proof (pw_le a (k - 1) ltac:(lia)). pose proof (pw_le b (k - 1) ltac:(lia)).
    pose proof (pw_double (k - 1)) as HD. replace (k - 1 + 1)%Z with k in HD by lia.
    pose proof (Rabs_triang r s). lra.
  Qed.

  Lemma fine_sub : forall x y r s a b k, fine x r a -> fine y s b ->
    (a < k)%Z -> (b < k)%Z -> (-100 <= k <= 120)%Z ->
    fine (@nsub xr X x y) (@nsub R (Num_fl F) r s) k.
  Proof.
    intros x y r s a b k [-> Hr] [-> Hs] Ha Hb Hk. cbn [nsub Num_xfl Num_fl xsub xneg xadd].
    apply (fine_round (r - s)); [exact Hk|].
    pose proof (pw_le a (k - 1) ltac:(lia)). pose proof (pw_le b (k - 1) ltac:(lia)).
    pose proof (pw_double (k - 1)) as HD. replace (k - 1 + 1)%Z with k in HD by lia.
    pose proof (Rabs_triang r (- s)) as HT. rewrite Rabs_Ropp in HT. unfold Rminus. lra.
  Qed.

  Lemma fine_mul : forall x y r s a b k, fine x r a -> fine y s b ->
    (a + b <= k)%Z -> (-100 <= k <= 120)%Z ->
    fine (@nmul xr X x y) (@nmul R (Num_fl F) r s) k.
  Proof.
    intros x y r s a b k [-> Hr] [-> Hs] Hab Hk. cbn [nmul Num_xfl Num_fl xmul].
    apply fine_round; [exact Hk|].
    rewrite Rabs_mult. apply Rle_trans with (pw (a + b)); [|now apply pw_le].
    rewrite bpow_plus. apply Rmult_le_compat; auto using Rabs_pos.
  Qed.

  (** A product with a number of size at most one does not grow, whatever the
      exponents. *)
  Lemma fine_div : forall x y r s a b k, fine x r a -> y = Fin s -> pw b <= Rabs s ->
    (a - b <= k)%Z -> (-100 <= k <= 120)%Z ->
    fine (@ndiv xr X x y) (@ndiv R (Num_fl F) r s) k.
  Proof.
    intros x y r s a b k [-> Hr] -> Hs Hab Hk. cbn [ndiv Num_xfl Num_fl xdiv].
    pose proof (pw_pos b) as Hb.
    assert (Hn : s <> 0) by (intros ->; rewrite Rabs_R0 in Hs; lra).
    unfold Reqb. destruct (Req_EM_T s 0) as [E|_]; [contradiction|].
    apply fine_round; [exact Hk|].
    unfold Rdiv. rewrite Rabs_mult, Rabs_inv.
    apply Rle_trans with (pw (a + - b)); [|apply pw_le; lia].
    rewrite bpow_plus, bpow_opp. apply Rmult_le_compat; auto using Rabs_pos.
    - left. apply Rinv_0_lt_compat. lra.
    - apply Rinv_le; [exact Hb | exact Hs].
  Qed.

  Lemma fine_logistic : forall x r a, fine x r a ->
    fine (@nlogistic xr X x) (@nlogistic R (Num_fl F) r) 0.
  Proof.
    intros x r a [-> _]. cbn [nlogistic Num_xfl Num_fl xlib].
    destruct (oa_logistic F HF r) as [H _].
    assert (HA : Rabs (lib_logistic F r) <= pw 0).
    { change (pw 0) with 1. apply Rabs_le. lra. }
    split; [apply no_over with 0%Z; [lia | exact HA] | exact HA].
  Qed.

  Lemma fine_log10 : forall t k, 0 < t -> (k <= 120)%Z -> Rabs (lib_log10 F t) <= pw k ->
    fine (@nlog10 xr X (Fin t)) (@nlog10 R (Num_fl F) t) k.
  Proof.
    intros t k Ht Hk H. cbn [nlog10 Num_xfl Num_fl xliblog].
    destruct (Rltb_spec 0 t) as [[-> _] | [_ H1]]; [|lra].
    split; [now apply no_over with k | exact H].
  Qed.

  Lemma fine_pow10 : forall x r a k, fine x r a -> (k <= 120)%Z ->
    Rabs (lib_pow10 F r) <= pw k ->
    fine (@npow10 xr X x) (@npow10 R (Num_fl F) r) k.
  Proof.
    intros x r a k [-> _] Hk H. cbn [npow10 Num_xfl Num_fl xlib].
    split; [now apply no_over with k | exact H].
  Qed.

  Lemma fine_fin : forall r k, Rabs r <= pw k -> fine (Fin r) r k.
  Proof. intros r k H. now split. Qed.

  Lemma fine_weaken : forall x r a b, fine x r a -> (a <= b)%Z -> fine x r b.
  Proof.
    intros x r a b [-> H] Hab. split; [reflexivity|]. pose proof (pw_le a b Hab). lra.
  Qed.

  (** ** The log-mass *)

  (** Ordinary sizes: parameters within [2^5], the logarithm of time within [2^10]. *)
  Definition sized (p : DiffmahParams R) (lgt0 : R) : Prop :=
    Rabs (logm0 p) <= pw 5 /\ Rabs (logtc p) <= pw 5 /\ Rabs (early_index p) <= pw 5 /\
    Rabs (late_index p) <= pw 5 /\ Rabs lgt0 <= pw 10.

  Lemma three_half : Rabs (35 / 10) <= pw 2.
  Proof. change (pw 2) with 4. rewrite Rabs_pos_eq; lra. Qed.

  Lemma fine_noq : forall p t lgt0, sized p lgt0 -> 0 < t -> Rabs (lib_log10 F t) <= pw 10 ->
    fine (@log_mah_noq_kern xr X (inject p) (Fin t) (Fin lgt0))
         (@log_mah_noq_kern R (Num_fl F) p t lgt0) 20.
  Proof.
    intros p t lgt0 (Hm & Hc & He & Hl & H0) Ht HL.
    assert (FL := fine_log10 t 10 Ht ltac:(lia) HL).
    unfold log_mah_noq_kern, rolling_plaw_vs_t, rolling_plaw_vs_logt,
      power_law_index_vs_logt, sigmoid, MAH_K.
    cbn [inject logm0 logtc early_index late_index t_peak].
    eapply fine_add with (a := 18%Z) (b := 5%Z); [| now apply fine_fin | lia | lia | lia].
    eapply fine_mul with (a := 7%Z) (b := 11%Z); [| | lia | lia].
    - eapply fine_add with (a := 5%Z) (b := 6%Z); [now apply fine_fin | | lia | lia | lia].
      eapply fine_mul with (a := 6%Z) (b := 0%Z); [| | lia | lia].
      + eapply fine_sub with (a := 5%Z) (b := 5%Z); try (now apply fine_fin); lia.
      + eapply fine_logistic with (a := 13%Z).
        eapply fine_mul with (a := 2%Z) (b := 11%Z); [| | lia | lia].
        * apply fine_const; [lia | exact three_half].
        * eapply fine_sub with (a := 10%Z) (b := 5%Z); [exact FL | now apply fine_fin | lia | lia | lia].
    - eapply fine_sub with (a := 10%Z) (b := 10%Z); [exact FL | now apply fine_fin | lia | lia | lia].
  Qed.

  Lemma fine_log_mah : forall p t lgt0, sized p lgt0 -> 0 < t -> 0 < t_peak p ->
    Rabs (lib_log10 F t) <= pw 10 -> Rabs (lib_log10 F (t_peak p)) <= pw 10 ->
    fine (@log_mah_kern xr X (inject p) (Fin t) (Fin lgt0)) (fl_log_mah F p t lgt0) 20.
  Proof.
    intros p t lgt0 HS Ht Hp HL HLp.
    pose proof (fine_noq p t lgt0 HS Ht HL) as H1.
    pose proof (fine_noq p (t_peak p) lgt0 HS Hp HLp) as H2.
    unfold fl_log_mah, logmh_at_t_obs, log_mah_kern, jwhere.
    change (t_peak (inject p)) with (Fin (t_peak p)).
    cbn [nltb Num_xfl Num_fl xltb].
    destruct (Rltb t (t_peak p)); assumption.
  Qed.

  (** ** Bounding *)

  Lemma xlogistic_range : forall x : xr, x <> NaN ->
    exists s, 0 <= s <= 1 /\ @nlogistic xr X x = Fin s.
  Proof.
    intros [r | | |] H; cbn [nlogistic Num_xfl xlib xlogistic].
    - destruct (oa_logistic F HF r) as [Hr _]. exists (lib_logistic F r). split; [exact Hr|].
      apply no_over with 0%Z; [lia|]. change (pw 0) with 1. apply Rabs_le. lra.
    - exists 1. split; [lra | reflexivity].
    - exists 0. split; [lra | reflexivity].
    - now destruct H.
  Qed.

  Lemma overflow_not_nan : forall r, overflow big r <> NaN.
  Proof. intros r. unfold overflow. destruct (Rltb big r), (Rltb r (- big)); discriminate. Qed.

  Lemma arg_not_nan : forall (x : xr) x0 k, x <> NaN -> 0 < k ->
    @nmul xr X (Fin k) (@nsub xr X x (Fin x0)) <> NaN.
  Proof.
    intros x x0 k Hx Hk. cbn [nmul nsub Num_xfl].
    assert (HS : xround F big (xsub x (Fin x0)) <> NaN).
    { destruct x as [r | | |]; cbn; try discriminate; [apply overflow_not_nan | now destruct Hx]. }
    assert (HI : forall b, xscale_inf b k <> NaN).
    { intros b. unfold xscale_inf, Reqb. destruct (Req_EM_T k 0) as [E | _]; [lra|].
      destruct (Rltb 0 k), b; discriminate. }
    destruct (xround F big (xsub x (Fin x0))) as [r | | |]; cbn [xmul];
      [cbn [xround]; apply overflow_not_nan | | | now destruct HS].
    - specialize (HI true). destruct (xscale_inf true k) as [z| | |]; cbn [xround];
        try discriminate; [apply overflow_not_nan | now destruct HI].
    - specialize (HI false). destruct (xscale_inf false k) as [z| | |]; cbn [xround];
        try discriminate; [apply overflow_not_nan | now destruct HI].
  Qed.

  Lemma fine_ramp : forall lo hi s, Rabs lo <= pw 5 -> Rabs hi <= pw 5 -> 0 <= s <= 1 ->
    fine (@nadd xr X (Fin lo) (@nmul xr X (@nsub xr X (Fin hi) (Fin lo)) (Fin s)))
      (ramp F lo hi s) 7.
  Proof.
    intros lo hi s Hl Hh Hs.
    change (ramp F lo hi s) with
      (@nadd R (Num_fl F) lo (@nmul R (Num_fl F) (@nsub R (Num_fl F) hi lo) s)).
    eapply fine_add with (a := 5%Z) (b := 6%Z); [now apply fine_fin | | lia | lia | lia].
    eapply fine_mul with (a := 6%Z) (b := 0%Z); [| | lia | lia].
    - eapply fine_sub with (a := 5%Z) (b := 5%Z); try (now apply fine_fin); lia.
    - apply fine_fin. change (pw 0) with 1. apply Rabs_le. lra.
  Qed.

  Lemma xsigmoid_ramp : forall (x : xr) x0 k lo hi, x <> NaN -> 0 < k ->
    Rabs lo <= pw 5 -> Rabs hi <= pw 5 ->
    exists s, 0 <= s <= 1 /\
      @sigmoid xr X x (Fin x0) (Fin k) (Fin lo) (Fin hi) = Fin (ramp F lo hi s).
  Proof.
    intros x x0 k lo hi Hx Hk Hl Hh. unfold sigmoid.
    destruct (xlogistic_range _ (arg_not_nan x x0 k Hx Hk)) as (s & Hs & ->).
    exists s. split; [exact Hs|]. apply (fine_ramp lo hi s Hl Hh Hs).
  Qed.

  Lemma half_machine : rd (1 / 2) = 1 / 2.
  Proof. replace (1 / 2) with (pw (-1)) by (change (pw (-1)) with (/ 2); lra). apply HP. lia. Qed.

  Lemma tenth_pos : 0 < rd (1 / 10).
  Proof.
    apply Rlt_le_trans with (pw (-4)); [apply pw_pos|].
    apply (rd_ge F HF); [apply HP; lia | change (pw (-4)) with (/ 16); lra].
  Qed.

  Lemma xconst : forall r k, (-100 <= k <= 120)%Z -> Rabs r <= pw k ->
    @nconst xr X r = Fin (rd r).
  Proof. intros r k Hk H. apply (fine_const r k Hk H). Qed.

  Lemma xbounded_param : forall (x : xr) lo hi, x <> NaN -> Rabs lo <= pw 5 -> Rabs hi <= pw 5 ->
    exists s, 0 <= s <= 1 /\
      @get_bounded_diffmah_param xr X x (Fin lo, Fin hi) = Fin (ramp F lo hi s).
  Proof.
    intros x lo hi Hx Hl Hh. unfold get_bounded_diffmah_param, BOUNDING_K.
    assert (HM : fine (@nmul xr X (@nconst xr X (1 / 2)) (@nadd xr X (Fin lo) (Fin hi)))
      (@nmul R (Num_fl F) (@nconst R (Num_fl F) (1 / 2)) (@nadd R (Num_fl F) lo hi)) 7).
    { eapply fine_mul with (a := 0%Z) (b := 6%Z); [| | lia | lia].
      - apply fine_const; [lia|]. change (pw 0) with 1. rewrite Rabs_pos_eq; lra.
      - eapply fine_add with (a := 5%Z) (b := 5%Z); try (now apply fine_fin); lia. }
    rewrite (proj1 HM), (xconst (1 / 10) 0); [| lia | change (pw 0) with 1; rewrite Rabs_pos_eq; lra].
    apply xsigmoid_ramp; auto. exact tenth_pos.
  Qed.

  (** Bounding any non-NaN numbers, infinite ones included. *)
  Lemma xbounded_ramps : forall v : DiffmahUParams xr,
    u_logm0 v <> NaN -> u_logtc v <> NaN -> u_early_index v <> NaN -> u_late_index v <> NaN ->
    u_t_peak v <> NaN ->
    (forall m, (Z.abs m < 64)%Z -> rd (IZR m) = IZR m) ->
    exists s1 s2 s3 s4 s5, 0 <= s1 <= 1 /\ 0 <= s2 <= 1 /\ 0 <= s3 <= 1 /\ 0 <= s4 <= 1 /\
      0 <= s5 <= 1 /\
      let late := ramp F (rd (1 / 10)) 5 s4 in
      (Rabs late <= pw 5 ->
       @get_bounded_mah_params xr X v =
       inject (mkParams (ramp F 0 17 s1) (ramp F (-1) 1 s2) (ramp F late 10 s3) late
                 (ramp F (rd (5 / 100)) 20 s5))).
  Proof.
    intros v H1 H2 H3 H4 H5 HI.
    assert (S : forall r, -20 <= r <= 20 -> Rabs r <= pw 5).
    { intros r Hr. change (pw 5) with 32. apply Rabs_le. lra. }
    assert (S' : forall r, -20 <= r <= 20 -> Rabs (rd r) <= pw 5).
    { intros r Hr. apply rd_abs; [lia | now apply S]. }
    destruct (xbounded_param (u_logm0 v) (rd 0) (rd 17) H1) as (s1 & B1 & E1);
      try (apply S'; lra).
    destruct (xbounded_param (u_logtc v) (rd (-1)) (rd 1) H2) as (s2 & B2 & E2);
      try (apply S'; lra).
    destruct (xbounded_param (u_late_index v) (rd (1 / 10)) (rd 5) H4) as (s4 & B4 & E4);
      try (apply S'; lra).
    destruct (xbounded_param (u_t_peak v) (rd (5 / 100)) (rd 20) H5) as (s5 & B5 & E5);
      try (apply S'; lra).
    destruct (xlogistic_range _ (arg_not_nan (u_early_index v) (rd 0) (rd (1 / 10)) H3 tenth_pos))
      as (s3 & B3 & E3).
    exists s1, s2, s3, s4, s5.
    split; [exact B1|]. split; [exact B2|]. split; [exact B3|]. split; [exact B4|].
    split; [exact B5|]. intros late HL.
    unfold get_bounded_mah_params, get_early_late, MAH_PBOUNDS.
    cbn [logm0 logtc early_index late_index t_peak snd].
    rewrite !(xconst _ 5) by (first [lia | apply S; lra]).
    rewrite E1, E2, E4, E5. unfold inject. cbn [logm0 logtc early_index late_index t_peak].
    unfold sigmoid, BOUNDING_K.
    rewrite !(xconst _ 5) by (first [lia | apply S; lra]).
    rewrite E3.
    rewrite (HI 0%Z), (HI 17%Z), (HI (-1)%Z), (HI 1%Z), (HI 5%Z), (HI 10%Z), (HI 20%Z) by lia.
    fold late.
    rewrite (proj1 (fine_ramp late 10 s3 HL ltac:(apply S; lra) B3)). reflexivity.
  Qed.

  (** ** The accretion rate *)

  Definition dfine (x : Dual xr) (r : Dual R) (a b : Z) : Prop :=
    fine (dval x) (dval r) a /\ fine (dder x) (dder r) b.

  Local Notation DX := (@Num_Dual xr X).
  Local Notation DR := (@Num_Dual R (Num_fl F)).

  Lemma zero_size : forall k, Rabs 0 <= pw k.
  Proof. intros. rewrite Rabs_R0. left. apply pw_pos. Qed.

  Lemma one_size : forall k, (0 <= k)%Z -> Rabs 1 <= pw k.
  Proof. intros k H. rewrite Rabs_R1. change 1 with (pw 0). now apply pw_le. Qed.

  Lemma dfine_const : forall r a b, (-100 <= a <= 120)%Z -> (-100 <= b <= 120)%Z ->
    Rabs r <= pw a -> dfine (@nconst _ DX r) (@nconst _ DR r) a b.
  Proof.
    intros r a b Ha Hb H. split; cbn [nconst Num_Dual dconst dval dder].
    - now apply fine_const.
    - apply fine_const; [exact Hb | apply zero_size].
  Qed.

  Lemma dfine_lift : forall r a b, (-100 <= b <= 120)%Z ->
    Rabs r <= pw a -> dfine (@dlift xr X (Fin r)) (@dlift R (Num_fl F) r) a b.
  Proof.
    intros r a b Hb H. split; cbn [dlift dval dder]; [now apply fine_fin|].
    apply fine_const; [exact Hb | apply zero_size].
  Qed.

  Lemma dfine_add : forall x y r s a b a' b' k l, dfine x r a a' -> dfine y s b b' ->
    (a < k)%Z -> (b < k)%Z -> (-100 <= k <= 120)%Z ->
    (a' < l)%Z -> (b' < l)%Z -> (-100 <= l <= 120)%Z ->
    dfine (@nadd _ DX x y) (@nadd _ DR r s) k l.
  Proof.
    intros x y r s a b a' b' k l [H1 H2] [H3 H4]; intros.
    split; cbn [nadd Num_Dual dadd dval dder]; eapply fine_add; eauto.
  Qed.

  Lemma dfine_sub : forall x y r s a b a' b' k l, dfine x r a a' -> dfine y s b b' ->
    (a < k)%Z -> (b < k)%Z -> (-100 <= k <= 120)%Z ->
    (a' < l)%Z -> (b' < l)%Z -> (-100 <= l <= 120)%Z ->
    dfine (@nsub _ DX x y) (@nsub _ DR r s) k l.
  Proof.
    intros x y r s a b a' b' k l [H1 H2] [H3 H4]; intros.
    split; cbn [nsub Num_Dual dsub dval dder]; eapply fine_sub; eauto.
  Qed.

  Lemma dfine_mul : forall x y r s a b a' b' k l, dfine x r a a' -> dfine y s b b' ->
    (a + b <= k)%Z -> (-100 <= k <= 120)%Z ->
    (a' + b < l)%Z -> (a + b' < l)%Z -> (-99 <= l <= 120)%Z ->
    dfine (@nmul _ DX x y) (@nmul _ DR r s) k l.
  Proof.
    intros x y r s a b a' b' k l [H1 H2] [H3 H4]; intros.
    split; cbn [nmul Num_Dual dmul dval dder].
    - eapply fine_mul; eauto.
    - eapply fine_add with (a := (l - 1)%Z) (b := (l - 1)%Z); try lia;
        eapply fine_mul; eauto; lia.
  Qed.

  Lemma dfine_logistic : forall x r a b l, dfine x r a b -> (b + 1 <= l)%Z ->
    (-99 <= l <= 120)%Z ->
    dfine (@nlogistic _ DX x) (@nlogistic _ DR r) 0 l.
  Proof.
    intros x r a b l [H1 H2] Hb Hl. pose proof (fine_logistic _ _ _ H1) as HS.
    split; cbn [nlogistic Num_Dual dlogistic dval dder]; [exact HS|].
    eapply fine_mul with (a := 1%Z) (b := b); [| exact H2 | lia | lia].
    eapply fine_mul with (a := 0%Z) (b := 1%Z); [exact HS | | lia | lia].
    eapply fine_sub with (a := 0%Z) (b := 0%Z); [| exact HS | lia | lia | lia].
    apply fine_const; [lia | apply one_size; lia].
  Qed.

  Lemma ln_le_mono : forall x y, 0 < x -> x <= y -> ln x <= ln y.
  Proof.
    intros x y H [H1 | ->]; [left; now apply ln_increasing | lra].
  Qed.

  Lemma ln10_size : 2 <= ln 10 <= 4.
  Proof.
    assert (HE : 2 <= exp 1) by (pose proof (exp_ineq1_le 1); lra).
    pose proof exp_le_3 as H3.
    split.
    - rewrite <- (ln_exp 2). apply ln_le_mono; [apply exp_pos|].
      replace 2 with (1 + 1) by ring. rewrite exp_plus. nra.
    - rewrite <- (ln_exp 4). apply ln_le_mono; [lra|].
      replace 4 with (1 + 1 + (1 + 1)) by ring. rewrite !exp_plus.
      assert (4 <= exp 1 * exp 1) by nra. nra.
  Qed.

  Lemma ln10_abs : Rabs (ln 10) <= pw 2.
  Proof. pose proof ln10_size. change (pw 2) with 4. rewrite Rabs_pos_eq; lra. Qed.

  Lemma dfine_log10 : forall t, pw (-20) <= t -> t <= pw 90 -> Rabs (lib_log10 F t) <= pw 10 ->
    dfine (@nlog10 _ DX (mkDual (Fin t) (@nconst xr X 1)))
          (@nlog10 _ DR (mkDual t (@nconst R (Num_fl F) 1))) 10 20.
  Proof.
    intros t Ht Ht2 HL. pose proof (pw_pos (-20)) as Hp.
    split; cbn [nlog10 Num_Dual dlog10 dval dder].
    - apply fine_log10; [lra | lia | exact HL].
    - pose proof ln10_size as HS. pose proof (HP (-20) ltac:(lia)) as HM.
      assert (H2 : machine F 2) by (apply (HP 1); lia).
      assert (HL2 : 2 <= rd (ln 10)) by (apply (rd_ge F HF); [exact H2 | lra]).
      assert (Hc : fine (@nmul xr X (Fin t) (@nconst xr X (ln 10)))
                     (@nmul R (Num_fl F) t (@nconst R (Num_fl F) (ln 10))) 92).
      { eapply fine_mul with (a := 90%Z) (b := 2%Z); [| | lia | lia].
        - apply fine_fin. rewrite Rabs_pos_eq; lra.
        - apply fine_const; [lia | exact ln10_abs]. }
      eapply fine_div with (a := 0%Z) (b := (-20)%Z); [| exact (proj1 Hc) | | lia | lia].
      + apply fine_const; [lia | apply one_size; lia].
      + cbn [nmul nconst Num_fl].
        apply Rle_trans with (rd (t * rd (ln 10))); [|apply Rle_abs].
        apply (rd_ge F HF); [exact HM | nra].
  Qed.

  Lemma fine_rate_noq : forall p t lgt0, sized p lgt0 ->
    pw (-20) <= t -> t <= pw 90 -> Rabs (lib_log10 F t) <= pw 10 ->
    Rabs (lib_pow10 F (@log_mah_noq_kern R (Num_fl F) p t lgt0)) <= pw 71 ->
    fine (@dmhdt_noq_kern_scalar xr X (inject p) (Fin t) (Fin lgt0))
         (@dmhdt_noq_kern_scalar R (Num_fl F) p t lgt0) 90.
  Proof.
    intros p t lgt0 HS Ht Ht2 HL HW.
    pose proof (pw_pos (-20)) as Hp20.
    assert (HV := fine_noq p t lgt0 HS ltac:(lra) HL).
    destruct HS as (Hm & Hc & He & Hl & H0).
    pose proof (dfine_log10 t Ht Ht2 HL) as FL.
    unfold dmhdt_noq_kern_scalar, dmhdt_noq_grad_kern_scalar, grad.
    assert (HD : dfine
      (@log_mah_noq_kern (Dual xr) DX (@dlift_params xr X (inject p))
         (mkDual (Fin t) (@nconst xr X 1)) (@dlift xr X (Fin lgt0)))
      (@log_mah_noq_kern (Dual R) DR (@dlift_params R (Num_fl F) p)
         (mkDual t (@nconst R (Num_fl F) 1)) (@dlift R (Num_fl F) lgt0)) 20 46).
    { unfold log_mah_noq_kern, rolling_plaw_vs_t, rolling_plaw_vs_logt,
        power_law_index_vs_logt, sigmoid, MAH_K.
      unfold dlift_params. cbn [inject logm0 logtc early_index late_index t_peak].
      eapply dfine_add with (a := 18%Z) (b := 5%Z) (a' := 45%Z) (b' := 0%Z);
        [| apply dfine_lift; [lia | assumption] | lia | lia | lia | lia | lia | lia].
      eapply dfine_mul with (a := 7%Z) (b := 11%Z) (a' := 33%Z) (b' := 21%Z);
        [| | lia | lia | lia | lia | lia].
      - eapply dfine_add with (a := 5%Z) (b := 6%Z) (a' := 0%Z) (b' := 32%Z);
          [apply dfine_lift; [lia | assumption] | | lia | lia | lia | lia | lia | lia].
        eapply dfine_mul with (a := 6%Z) (b := 0%Z) (a' := 1%Z) (b' := 25%Z);
          [| | lia | lia | lia | lia | lia].
        + eapply dfine_sub with (a := 5%Z) (b := 5%Z) (a' := 0%Z) (b' := 0%Z);
            [apply dfine_lift; [lia | assumption] | apply dfine_lift; [lia | assumption]
            | lia | lia | lia | lia | lia | lia].
        + eapply dfine_logistic with (a := 13%Z) (b := 24%Z); [| lia | lia].
          eapply dfine_mul with (a := 2%Z) (b := 11%Z) (a' := 0%Z) (b' := 21%Z);
            [| | lia | lia | lia | lia | lia].
          * apply dfine_const; [lia | lia | exact three_half].
          * eapply dfine_sub with (a := 10%Z) (b := 5%Z) (a' := 20%Z) (b' := 0%Z);
              [exact FL | apply dfine_lift; [lia | assumption] | lia | lia | lia | lia | lia | lia].
      - eapply dfine_sub with (a := 10%Z) (b := 10%Z) (a' := 20%Z) (b' := 0%Z);
          [exact FL | apply dfine_lift; [lia | assumption] | lia | lia | lia | lia | lia | lia]. }
    unfold mah_noq_kern. destruct HD as [HD1 HD2].
    cbn [npow10 Num_Dual dpow10 dder].
    assert (HN : pw 29 <= Rabs (rd 1000000000)).
    { apply Rle_trans with (rd 1000000000); [|apply Rle_abs].
      apply (rd_ge F HF); [apply HP; lia | change (pw 29) with 536870912; lra]. }
    eapply fine_div with (a := 119%Z) (b := 29%Z); [| | exact HN | lia | lia].
    - eapply fine_mul with (a := 73%Z) (b := 46%Z); [| exact HD2 | lia | lia].
      eapply fine_mul with (a := 71%Z) (b := 2%Z); [| | lia | lia].
      + eapply fine_pow10; [exact HD1 | lia | exact HW].
      + apply fine_const; [lia | exact ln10_abs].
    - exact (proj1 (fine_const 1000000000 30 ltac:(lia)
        ltac:(change (pw 30) with 1073741824; rewrite Rabs_pos_eq; lra))).
  Qed.
End Finite.
