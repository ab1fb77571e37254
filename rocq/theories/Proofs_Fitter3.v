(** Further facts about the fitter, in the form used by Props_Fitter.v. *)

From Coq Require Import Reals Lra Lia List Arith Bool ZArith Permutation.
From Coquelicot Require Import Coquelicot.
From Verif Require Import Model_Num RealAux Model_Base Model_Kernels Model_Utils Model_Adam
  Model_Fitter Spec_Kernels Spec_Fitter Proofs_Kernels Proofs_XKernels Proofs_AD Proofs_Adam
  Proofs_Fitter Proofs_Loss Proofs_Fitter2.
Import ListNotations.
Local Open Scope R_scope.

(** ** Targets *)

Lemma running_max_up l r : running_max l r ->
  (forall i x y, nth_error r i = Some x -> nth_error r (S i) = Some y -> x <= y) /\
  (forall i x y, nth_error l i = Some x -> nth_error r i = Some y -> x <= y).
Proof.
  intros [HL H]. split.
  - intros i x y Hx Hy. destruct (H _ _ Hx) as ((j & Hj & E) & _).
    destruct (H _ _ Hy) as (_ & K). exact (K j _ (Nat.le_trans _ _ _ Hj (Nat.le_succ_diag_r i)) E).
  - intros i x y Hx Hy. destruct (H _ _ Hy) as (_ & K). apply (K i); auto.
Qed.

Lemma running_max_fun l r r' : running_max l r -> running_max l r' -> r = r'.
Proof.
  intros [H1 K1] [H2 K2]. apply nth_ext with (d := 0) (d' := 0); [congruence|].
  intros i Hi.
  pose proof (nth_error_nth' r 0 Hi) as E. assert (Hi' : (i < length r')%nat) by congruence.
  pose proof (nth_error_nth' r' 0 Hi') as E'.
  destruct (K1 _ _ E) as ((j & Hj & Ej) & Kj). destruct (K2 _ _ E') as ((k & Hk & Ek) & Kk).
  specialize (Kj k _ Hk Ek). specialize (Kk j _ Hj Ej). lra.
Qed.

Lemma wanted_fun c t lm l0 tpf tp tp' :
  wanted_t_peak c t lm l0 tpf tp -> wanted_t_peak c t lm l0 tpf tp' -> tp = tp'.
Proof.
  destruct tpf; cbn; [congruence|].
  intros (i & Hi & (x & Hx & Ex) & K) (i' & Hi' & (x' & Hx' & Ex') & K').
  destruct (lt_eq_lt_dec i i') as [[H|H]|H].
  - exfalso. apply (K' i x H Hx Ex).
  - subst. congruence.
  - exfalso. apply (K i' x' H Hx' Ex').
Qed.

Lemma t_peak_mono f4 c lm l0 : casts f4 c -> (forall x y, x <= y -> c x <= c y) ->
  last_is lm l0 -> (forall i x y, nth_error lm i = Some x -> nth_error lm (S i) = Some y -> x <= y) ->
  exists i, compute_indx_t_peak_singlehalo f4 (map Fin lm) = Ok i /\ (i < length lm)%nat /\
    (forall j x, nth_error lm j = Some x -> (j < i)%nat -> c x < c l0) /\
    (forall j x, nth_error lm j = Some x -> (i <= j)%nat -> c x = c l0).
Proof.
  intros Hc Hm HL HI. destruct (indx_t_peak_fin f4 c lm l0 Hc HL) as (i & E & (x & Hx & Ex) & K).
  exists i. split; [exact E|].
  assert (HM : forall k j a b, nth_error lm j = Some a -> nth_error lm (j + k) = Some b -> a <= b).
  { induction k as [|k IH]; intros j a b Ha Hb.
    - rewrite Nat.add_0_r in Hb. assert (a = b) by congruence. lra.
    - assert (Hlt : (j + k < length lm)%nat).
      { assert (j + S k < length lm)%nat by (apply nth_error_Some; congruence). lia. }
      destruct (nth_error lm (j + k)) as [z|] eqn:Ez; [|apply nth_error_None in Ez; lia].
      specialize (IH j a z Ha Ez). rewrite Nat.add_succ_r in Hb. specialize (HI _ _ _ Ez Hb). lra. }
  assert (HL' : forall j a, nth_error lm j = Some a -> a <= l0).
  { intros j a Ha. pose proof (last_nth _ _ HL) as HN.
    assert (j < length lm)%nat by (apply nth_error_Some; congruence).
    apply (HM (length lm - 1 - j)%nat j a l0 Ha).
    replace (j + (length lm - 1 - j))%nat with (length lm - 1)%nat by lia. exact HN. }
  split; [apply nth_error_Some; congruence|]. split.
  - intros j a Ha Hj. pose proof (Hm _ _ (HL' _ _ Ha)). pose proof (K _ _ Hj Ha). lra.
  - intros j a Ha Hj. pose proof (Hm _ _ (HL' _ _ Ha)).
    pose proof (HM (j - i)%nat i x a Hx) as HX. replace (i + (j - i))%nat with j in HX by lia.
    pose proof (Hm _ _ (HX Ha)). lra.
Qed.

Lemma clip_one g m :
  exists y, get_clipped_log_mah [Fin m] (Fin g) = [Fin y] /\
    (m <= pow10 g -> y = log10 (pow10 g + 1 / 10000000)) /\ (pow10 g < m -> y = log10 m) /\ g < y.
Proof.
  exists (floored_logmass (pow10 g) m). split; [exact (clipped_fin [m] (Some g))|].
  unfold floored_logmass. pose proof (pow10_pos g). destruct (Rle_dec m (pow10 g)) as [H1|H1].
  - rewrite Rplus_comm. split; [reflexivity|]. split; [lra|]. apply log10_gt_pow10. lra.
  - split; [intros; contradiction|]. split; [reflexivity|]. apply log10_gt_pow10. lra.
Qed.

Lemma clip_entry : forall g ms i m y, nth_error ms i = Some m ->
  nth_error (get_clipped_log_mah (map Fin ms) (Fin g)) i = Some y ->
  exists r, y = Fin r /\
    (m <= pow10 g -> r = log10 (pow10 g + 1 / 10000000)) /\ (pow10 g < m -> r = log10 m) /\ g < r.
Proof.
  intros g ms i m y Hi Hy. destruct (clip_one g m) as (r & E & HR). exists r. split; [|exact HR].
  unfold get_clipped_log_mah, get_clipped_log_mah_in in *. rewrite map_map, nth_error_map, Hi in Hy.
  cbn [option_map] in Hy. injection Hy as <-. cbn [map] in E. now injection E.
Qed.

Lemma clip_minus_inf_one m : 0 <= m ->
  get_clipped_log_mah [Fin m] MInf = [Fin (if Req_EM_T m 0 then -7 else log10 m)].
Proof.
  intros Hm. change MInf with (lgm_arg None). change [Fin m] with (map Fin [m]). rewrite clipped_fin.
  cbn [map mass_floor]. do 2 f_equal. unfold floored_logmass.
  destruct (Rle_dec m 0), (Req_EM_T m 0); try lra.
  replace (1 / 10000000 + 0) with (pow10 (-7)); [apply log10_pow10|].
  unfold pow10. rewrite Rplus_0_r.
  replace (-7 * ln 10) with (- (7 * ln 10)) by ring.
  rewrite exp_Ropp. replace (7 * ln 10) with (ln 10 * INR 7) by (cbn; ring).
  rewrite <- (Rpower_pow 7) || idtac.
  replace (exp (ln 10 * INR 7)) with (10 ^ 7); [field|].
  rewrite <- (exp_ln (10 ^ 7)) by lra. f_equal. rewrite ln_pow by lra. ring.
Qed.

Lemma clip_minus_inf : forall ms i m, 0 <= m -> nth_error ms i = Some m ->
  nth_error (get_clipped_log_mah (map Fin ms) MInf) i = Some (Fin (if Req_EM_T m 0 then -7 else log10 m)).
Proof.
  intros ms i m Hm Hi. pose proof (clip_minus_inf_one m Hm) as E.
  unfold get_clipped_log_mah, get_clipped_log_mah_in in *. rewrite map_map, nth_error_map, Hi.
  cbn [option_map]. f_equal. cbn [map] in E. now injection E.
Qed.

(** ** Adam *)

Section Wrapper.
  Context {P G S : Type}.
  Variable pfinite : P -> bool.
  Variable gfinite : G -> bool.
  Variable pcast : P -> P.
  Variable pzero : P.
  Variable adam : R -> optimizer P G S.
  Variable lg : P -> xr * G.

  Notation AW := (jax_adam_wrapper_ pfinite gfinite pcast pzero adam lg).
  Notation JW := (jax_adam_wrapper pfinite gfinite pcast pzero adam lg).

  Lemma warmup_burns n : forall wn ws tol p0 p l f k p' l' f',
    burns (fun q => AW q wn ws tol) p0 k p l f ->
    warmup pfinite gfinite pcast pzero adam lg n wn ws tol p l f = Ok (p', l', f') ->
    burns (fun q => AW q wn ws tol) p0 (k + n) p' l' f'.
  Proof.
    induction n as [|n IH]; intros wn ws tol p0 p l f k p' l' f' HB H; cbn [warmup] in H.
    - injection H as <- <- <-. now rewrite Nat.add_0_r.
    - destruct (AW p wn ws tol) as [fr|] eqn:E; cbn [bind] in H; [|discriminate].
      rewrite Nat.add_succ_r. refine (IH _ _ _ p0 _ _ _ (Datatypes.S k) _ _ _ _ H).
      econstructor; eauto.
  Qed.

  Lemma wrapper_start p n_step n_warmup s wn ws tol fr flag :
    JW p n_step n_warmup s wn ws tol = Ok (fr, flag) ->
    exists p' l' f',
      burns (fun q => AW q wn (match ws with None => 5 * s | Some x => x end) tol) p n_warmup p' l' f' /\
      (xltb tol l' = true -> pfinite p' = true -> AW p' n_step s tol = Ok fr) /\
      (xltb tol l' = true -> pfinite p' = false -> AW p n_step s tol = Ok fr) /\
      (xltb tol l' = false -> f' = Some fr) /\
      (flag = true <-> (n_step <= length (b_loss_arr fr))%nat).
  Proof.
    unfold jax_adam_wrapper. cbv zeta.
    destruct (warmup _ _ _ _ _ _ _ _ _ _ _ _ _) as [[[p' l'] f']|] eqn:EW; cbn [bind]; [|discriminate].
    intros H. exists p', l', f'. split.
    { refine (warmup_burns n_warmup _ _ _ p _ _ _ 0%nat _ _ _ _ EW). constructor. }
    assert (HFL : forall fr : burn P, (negb (Nat.ltb (length (b_loss_arr fr)) n_step) = true
                  <-> (n_step <= length (b_loss_arr fr))%nat)).
    { intros fr'. rewrite negb_true_iff, Nat.ltb_ge. reflexivity. }
    destruct (xltb tol l').
    - destruct (AW (if pfinite p' then p' else p) n_step s tol) as [fr'|] eqn:EA; cbn [bind] in H; [|discriminate].
      injection H as <- <-.
      refine (conj _ (conj _ (conj _ (HFL _)))); try discriminate; intros _ E; rewrite E in EA; exact EA.
    - cbn [bind] in H. destruct f' as [f'|]; [|discriminate]. injection H as <- <-.
      refine (conj _ (conj _ (conj _ (HFL _)))); try discriminate. reflexivity.
  Qed.

  (** Without a tolerance: the flag says whether the main burn met NaN or inf. *)
  Lemma wrapper_flag p n_step n_warmup s wn ws fr flag : (0 < n_step)%nat ->
    JW p n_step n_warmup s wn ws MInf = Ok (fr, flag) ->
    exists q, AW q n_step s MInf = Ok fr /\
    (flag = true <-> forall k, (k < n_step)%nat -> clean pfinite gfinite lg (visited (adam s) lg q k)).
  Proof.
    intros Hn H. destruct (wrapper_start _ _ _ _ _ _ _ _ _ H) as (p' & l' & f' & HB & H1 & H2 & H3 & H4).
    assert (HT : forall x r, x = Fin r -> xltb MInf x = true) by (intros x r ->; reflexivity).
    assert (HNT : forall x, xltb x MInf = false) by (intros [ | | |]; reflexivity).
    assert (HL : xltb MInf l' = true).
    { inversion HB as [|n p'' l'' f'' fr' HB' ER]; subst; [reflexivity|].
      destruct (adam_outcome pfinite gfinite pcast pzero adam lg MInf p''
                 (match ws with None => 5 * s | Some x => x end) wn) as (O1 & O2 & O3).
      destruct (adam_cases pfinite gfinite pcast pzero adam lg MInf p''
                 (match ws with None => 5 * s | Some x => x end) wn) as [(k & Hk & HX)|[(k & Hk & HX)|HX]].
      - destruct (O1 k Hk HX) as [(_ & E')|(_ & b & (_ & rb & Eb & _) & E')]; rewrite ER in E'; injection E' as ->;
          cbn [b_loss]; [reflexivity|]. rewrite Eb. reflexivity.
      - destruct HX as (_ & _ & HX). rewrite HNT in HX. discriminate.
      - destruct (O3 HX) as [(_ & E')|(_ & b & (_ & rb & Eb & _) & E')]; rewrite ER in E'; [discriminate|].
        injection E' as ->. cbn [b_loss]. rewrite Eb. reflexivity. }
    assert (HQ : exists q, AW q n_step s MInf = Ok fr).
    { destruct (pfinite p'); eauto. }
    destruct HQ as (q & HQ). exists q. split; [exact HQ|]. rewrite H4.
    destruct (adam_outcome pfinite gfinite pcast pzero adam lg MInf q s n_step) as (O1 & O2 & O3).
    destruct (adam_cases pfinite gfinite pcast pzero adam lg MInf q s n_step) as [(k & Hk & HX)|[(k & Hk & HX)|HX]].
    - destruct HX as (HX1 & HX2).
      assert (length (b_loss_arr fr) = k).
      { destruct (O1 k Hk (conj HX1 HX2)) as [(-> & E')|(_ & b & _ & E')]; rewrite HQ in E'; injection E' as ->;
          cbn [b_loss_arr length]; [reflexivity|]. now rewrite map_length, seq_length. }
      split; [lia|]. intros HC. exfalso. apply HX2, HC, Hk.
    - destruct HX as (_ & _ & HX). rewrite HNT in HX. discriminate.
    - destruct (O3 HX) as [(HZ & _)|(_ & b & _ & E')]; [lia|]. rewrite HQ in E'. injection E' as ->.
      cbn [b_loss_arr]. rewrite map_length, seq_length. split; [|lia]. intros _ k Hk. apply HX, Hk.
  Qed.

  Variable minimize : (P -> xr) -> (P -> G) -> P -> P * xr * bool.
  Notation FB := (bfgs_adam_fallback pfinite gfinite pcast pzero adam lg minimize).

  Lemma fallback_iff p n nw : (0 < n)%nat ->
    let '(x, f, ok) := minimize (fun q => fst (lg q)) (fun q => snd (lg q)) p in
    let good := ok = true /\ exists r, f = Fin r /\ 0 < r in
    (good -> FB p n nw = Ok (x, f, true, 0%nat)) /\
    (~ good -> exists fr flag,
       JW p n nw (1 / 100) 50 None (Fin 0) = Ok (fr, flag) /\
       FB p n nw = Ok (b_params fr, b_loss fr, flag, 1%nat)).
  Proof.
    intros Hn. destruct (minimize _ _ p) as [[x f] ok] eqn:EM. cbv zeta.
    assert (HG : (ok && xisfinite f && xltb (Fin 0) f)%bool = true <->
                 ok = true /\ exists r, f = Fin r /\ 0 < r).
    { rewrite !andb_true_iff, finite_b. split.
      - intros ((-> & (r & ->)) & H). cbn in H. apply Rltb_true in H. eauto.
      - intros (-> & r & -> & H). cbn. rewrite Rltb_true. split; [split; [auto|eexists; reflexivity]|auto]. }
    unfold bfgs_adam_fallback, scipy_lbfgs_wrapper. rewrite EM. split.
    - intros H. pose proof H as (-> & _). apply HG in H. rewrite H. reflexivity.
    - intros H. destruct (ok && xisfinite f && xltb (Fin 0) f)%bool; [exfalso; apply H, HG; reflexivity|].
      destruct (wrapper_ok pfinite gfinite pcast pzero adam lg p n nw (1 / 100) 50 None (Fin 0) Hn)
        as ((fr & t) & ->); [lia|left; reflexivity|]. exists fr, t. split; reflexivity.
  Qed.
End Wrapper.

(** ** Gradient of the loss *)

Lemma is_derive_shift (F : R -> R) a l : is_derive F 0 l -> is_derive (fun x => F (x - a)) a l.
Proof.
  intros H. replace l with (1 * l) by ring.
  apply (is_derive_comp F (fun x => x - a) a l 1).
  - now replace (a - a) with 0 by ring.
  - auto_derive; auto.
Qed.

Lemma loss_partials (v : Varied R) ts ys utp l :
  (forall t, In t ts -> 0 < t) -> ts <> [] -> length ts = length ys ->
  let L a b c d := log_mah_loss_uparams (mkVaried a b c d) ts ys utp l in
  let g := snd (loss_and_grads_kern v ts ys utp l) in
  is_derive (fun x => L x (v_logtc v) (v_early v) (v_late v)) (v_logm0 v) (v_logm0 g) /\
  is_derive (fun x => L (v_logm0 v) x (v_early v) (v_late v)) (v_logtc v) (v_logtc g) /\
  is_derive (fun x => L (v_logm0 v) (v_logtc v) x (v_late v)) (v_early v) (v_early g) /\
  is_derive (fun x => L (v_logm0 v) (v_logtc v) (v_early v) x) (v_late v) (v_late g).
Proof.
  intros Hp Hne HL L g. unfold g. rewrite grads_R. cbv zeta. cbn [snd v_logm0 v_logtc v_early v_late].
  assert (HT : forall i, is_derive (fun h => log_mah_loss_uparams (vline v (dir4 i) h) ts ys utp l) 0
     (dder (log_mah_loss_uparams (vseed v (dir4 i)) (map dlift ts) (map dlift ys) (dlift utp) (dlift l)))).
  { intros i. apply (tracks_loss v (dir4 i) ts ys utp l Hp Hne HL). }
  unfold L.
  assert (HS : forall i f a, (forall x, log_mah_loss_uparams (vline v (dir4 i) (x - a)) ts ys utp l = f x) ->
     is_derive f a (dder (log_mah_loss_uparams (vseed v (dir4 i)) (map dlift ts) (map dlift ys) (dlift utp) (dlift l)))).
  { intros i f a HX. eapply is_derive_ext; [exact HX|]. exact (is_derive_shift _ a _ (HT i)). }
  refine (conj _ (conj _ (conj _ _))); apply HS; intros x; f_equal; unfold vline, dir4;
    cbn [Nat.eqb v_logm0 v_logtc v_early v_late]; f_equal; ring.
Qed.
