(** The Adam wrapper and the fallback logic. *)

From Coq Require Import Reals Lra Lia List Arith Bool.
From Verif Require Import Model_Num RealAux Model_Base Model_Kernels Model_Adam Model_Fitter
  Spec_Kernels Spec_Fitter.
Import ListNotations.
Local Open Scope R_scope.

Lemma argmin_from_spec l : forall i k b pre,
  length pre = i -> nth_error pre k = Some b ->
  (forall j r, nth_error pre j = Some r -> b <= r) ->
  (forall j r, (j < k)%nat -> nth_error pre j = Some r -> b < r) ->
  exists m, nth_error (pre ++ l) (argmin_from i k (Fin b) (map Fin l)) = Some m /\
    (forall j r, nth_error (pre ++ l) j = Some r -> m <= r) /\
    (forall j r, (j < argmin_from i k (Fin b) (map Fin l))%nat ->
       nth_error (pre ++ l) j = Some r -> m < r).
Proof.
  induction l as [|x l IH]; intros i k b pre HL HK HM HF.
  - cbn. rewrite app_nil_r. eauto.
  - cbn [map argmin_from].
    replace (pre ++ x :: l) with ((pre ++ [x]) ++ l) by (rewrite <- app_assoc; reflexivity).
    assert (HK' : (k < length pre)%nat) by (apply nth_error_Some; congruence).
    assert (HA : forall j r, nth_error (pre ++ [x]) j = Some r ->
              (nth_error pre j = Some r /\ (j < i)%nat) \/ (j = i /\ r = x)).
    { intros j r Hj. destruct (Nat.lt_ge_cases j i) as [Hl|Hg].
      - left. rewrite nth_error_app1 in Hj by lia. auto.
      - right. rewrite nth_error_app2 in Hj by lia. rewrite HL in Hj.
        destruct (j - i)%nat as [|d] eqn:E.
        + cbn in Hj. injection Hj as <-. split; [lia|reflexivity].
        + cbn in Hj. destruct d; discriminate. }
    change (xltb (Fin x) (Fin b)) with (Rltb x b).
    destruct (Rltb x b) eqn:E; [apply Rltb_true in E | apply Rltb_false in E].
    + apply IH.
      * rewrite app_length. cbn. lia.
      * rewrite nth_error_app2 by lia. rewrite HL, Nat.sub_diag. reflexivity.
      * intros j r Hj. destruct (HA j r Hj) as [[H _]|[_ ->]]; [|lra].
        specialize (HM j r H). lra.
      * intros j r Hlt Hj. destruct (HA j r Hj) as [[H _]|[-> _]]; [|lia].
        specialize (HM j r H). lra.
    + apply IH.
      * rewrite app_length. cbn. lia.
      * rewrite nth_error_app1 by lia. exact HK.
      * intros j r Hj. destruct (HA j r Hj) as [[H _]|[_ ->]]; [eauto|lra].
      * intros j r Hlt Hj. destruct (HA j r Hj) as [[H _]|[-> _]]; [eauto|lia].
Qed.

Lemma nanargmin_fin l : l <> [] ->
  exists b m, nanargmin (map Fin l) = Ok b /\ nth_error l b = Some m /\
    (forall j r, nth_error l j = Some r -> m <= r) /\
    (forall j r, (j < b)%nat -> nth_error l j = Some r -> m < r).
Proof.
  intros Hl. destruct l as [|x l]; [contradiction|].
  assert (E : nanargmin (map Fin (x :: l)) = Ok (argmin_from 1 0 (Fin x) (map Fin l))).
  { unfold nanargmin. cbn [map forallb xisnan andb].
    rewrite map_map. cbn [xisnan]. reflexivity. }
  destruct (argmin_from_spec l 1 0 x [x] eq_refl eq_refl) as (m & H1 & H2 & H3).
  - intros [|[|j]] r Hj; cbn in Hj; try discriminate. injection Hj as <-. lra.
  - intros j r Hj. lia.
  - exists (argmin_from 1 0 (Fin x) (map Fin l)), m. auto.
Qed.

Lemma setrow_end {A} (l : list A) (a z : A) (r : list A) :
  setrow (l ++ z :: r) (length l) a = l ++ a :: r.
Proof.
  unfold setrow. rewrite firstn_app, Nat.sub_diag, firstn_all. cbn [firstn].
  rewrite app_nil_r, skipn_app, Nat.sub_diag, skipn_all. reflexivity.
Qed.

Section AdamFacts.
  Context {P G S : Type}.
  Variable pfinite : P -> bool.
  Variable gfinite : G -> bool.
  Variable pcast : P -> P.
  Variable pzero : P.
  Variable adam : R -> optimizer P G S.
  Variable lg : P -> xr * G.

  Notation AW := (jax_adam_wrapper_ pfinite gfinite pcast pzero adam lg).
  Notation AL := (adam_loop pfinite gfinite pcast lg).

  Notation clean := (clean pfinite gfinite lg).

  Lemma finite_b x : xisfinite x = true <-> finite x.
  Proof.
    split; [destruct x; cbn; try discriminate; intros _; eexists; reflexivity|].
    intros [r ->]. reflexivity.
  Qed.

  Lemma has_nans_iff p :
    (negb (pfinite p) || negb (xisfinite (fst (lg p))) || negb (gfinite (snd (lg p))))%bool = false
    <-> clean p.
  Proof.
    unfold Spec_Fitter.clean. rewrite <- finite_b.
    destruct (pfinite p), (xisfinite (fst (lg p))), (gfinite (snd (lg p))); cbn; intuition discriminate.
  Qed.

  Variable tol : xr.
  Variable params_init : P.
  Variable step_size : R.

  Let opt := adam step_size.
  Let v k := visited opt lg params_init k.
  Let L k := fst (lg (v k)).
  Definition going k := carries_on pfinite gfinite lg tol (v k).

  Lemma going_tol k : going k -> xltb (L k) tol = false.
  Proof. intros [_ H]. exact H. Qed.

  Lemma losses_fin n : (forall k, (k < n)%nat -> finite (L k)) ->
    exists rs, map L (seq 0 n) = map Fin rs /\ length rs = n.
  Proof.
    induction n as [|n IH]; intros H.
    - exists []. auto.
    - destruct IH as (rs & E & HL); [auto with arith|].
      destruct (H n ltac:(lia)) as [r Hr]. exists (rs ++ [r]). split.
      + rewrite seq_S, !map_app, E. cbn. now rewrite Hr.
      + rewrite app_length, HL. cbn. lia.
  Qed.

  Lemma nth_losses n k : (k < n)%nat -> nth_error (map L (seq 0 n)) k = Some (L k).
  Proof.
    intros H. rewrite nth_error_map, (nth_error_nth' (seq 0 n) 0%nat) by (rewrite seq_length; lia).
    rewrite seq_nth by lia. reflexivity.
  Qed.

  Lemma nth_visited n k : (k < n)%nat ->
    nth_error (map (fun k => pcast (v k)) (seq 0 n)) k = Some (pcast (v k)).
  Proof.
    intros H. rewrite nth_error_map, (nth_error_nth' (seq 0 n) 0%nat) by (rewrite seq_length; lia).
    rewrite seq_nth by lia. reflexivity.
  Qed.

  Lemma best_losses n : (0 < n)%nat -> (forall k, (k < n)%nat -> finite (L k)) ->
    exists b, nanargmin (map L (seq 0 n)) = Ok b /\ first_best L n b.
  Proof.
    intros Hn HF. destruct (losses_fin n HF) as (rs & E & HL). rewrite E.
    destruct (nanargmin_fin rs) as (b & m & N & Hm & H1 & H2).
    { destruct rs; [cbn in HL; lia|discriminate]. }
    exists b. split; [exact N|].
    assert (Hb : (b < n)%nat) by (rewrite <- HL; apply nth_error_Some; congruence).
    assert (HX : forall k r, (k < n)%nat -> (L k = Fin r <-> nth_error rs k = Some r)).
    { intros k r Hk. pose proof (nth_losses n k Hk) as HN. rewrite E, nth_error_map in HN.
      destruct (nth_error rs k) as [z|]; [|discriminate]. cbn in HN. injection HN as <-.
      split; congruence. }
    split; [exact Hb|]. exists m. split; [now apply HX|]. split.
    - intros k rk Hk Hr. apply (H1 k). now apply HX.
    - intros k rk Hk Hr. apply (H2 k); [lia|]. apply HX; [lia|auto].
  Qed.

  Lemma first_best_unique n b b' : first_best L n b -> first_best L n b' -> b = b'.
  Proof.
    intros (H1 & r & E & A & B) (H1' & r' & E' & A' & B').
    destruct (lt_eq_lt_dec b b') as [[H|H]|H]; auto.
    - specialize (B' b r H E). specialize (A b' r' H1' E'). lra.
    - specialize (B b' r' H E'). specialize (A' b r H1 E). lra.
  Qed.

  Definition bad_at s := (forall k, (k < s)%nat -> going k) /\ ~ clean (v s).
  Definition tol_at s := (forall k, (k < s)%nat -> going k) /\ clean (v s) /\ xltb (L s) tol = true.

  Let rowsv s := map (fun k => pcast (v k)) (seq 0 s).

  (** The outcome of the loop with [n] steps in total. *)
  Definition outcome n (r : res (burn P)) : Prop :=
    (forall s, (s < n)%nat -> bad_at s ->
       (s = 0%nat /\ r = Ok (mkBurn (v 0) (Fin (99999 / 100)) [] [])) \/
       ((0 < s)%nat /\ exists b, first_best L s b /\
          r = Ok (mkBurn (pcast (v b)) (L b) (map L (seq 0 s)) (rowsv s)))) /\
    (forall s, (s < n)%nat -> tol_at s ->
       r = Ok (mkBurn (v s) (L s) (map L (seq 0 (1 + s)))
                 (rowsv (1 + s) ++ repeat pzero (n - (1 + s))))) /\
    ((forall k, (k < n)%nat -> going k) ->
       (n = 0%nat /\ r = Err ValueError) \/
       ((0 < n)%nat /\ exists b, first_best L n b /\
          r = Ok (mkBurn (pcast (v b)) (L b) (map L (seq 0 n)) (rowsv n)))).

  Lemma getitem_nth {A} (l : list A) i a : nth_error l i = Some a -> getitem l i = Ok a.
  Proof. unfold getitem. now intros ->. Qed.

  Lemma loop_outcome n m istep :
    (istep + m = n)%nat -> (forall k, (k < istep)%nat -> going k) ->
    outcome n (AL opt tol m istep (state_at opt lg (opt_init opt params_init) istep)
                 (map L (seq 0 istep)) (rowsv istep ++ repeat pzero m)).
  Proof.
    revert istep. induction m as [|m IH]; intros istep Hn HG.
    - assert (istep = n) by lia. subst istep. clear Hn. cbn [adam_loop repeat]. rewrite app_nil_r.
      split; [|split].
      + intros s Hs (_ & HB). exfalso. apply HB. apply HG; lia.
      + intros s Hs (_ & _ & HB). exfalso. pose proof (going_tol _ (HG s Hs)) as HX.
        congruence.
      + intros _. destruct n as [|n]; [left; auto|]. right. split; [lia|].
        destruct (best_losses (Datatypes.S n)) as (b & N & FB); [lia| |].
        { intros k Hk. apply (HG k Hk). }
        exists b. split; [exact FB|]. rewrite N. cbn [bind].
        rewrite (getitem_nth (rowsv (Datatypes.S n)) b _ (nth_visited _ b (proj1 FB))).
        rewrite (getitem_nth _ _ _ (nth_losses _ b (proj1 FB))). reflexivity.
    - cbn [adam_loop repeat].
      change (get_params opt (state_at opt lg (opt_init opt params_init) istep)) with (v istep).
      rewrite (surjective_pairing (lg (v istep))). cbv zeta. cbn [fst snd].
      replace (map L (seq 0 istep) ++ [fst (lg (v istep))]) with (map L (seq 0 (1 + istep)))
        by (cbn [Nat.add]; rewrite seq_S, map_app; reflexivity).
      set (bad := (negb (pfinite (v istep)) || negb (xisfinite (fst (lg (v istep))))
                   || negb (gfinite (snd (lg (v istep)))))%bool).
      assert (HF1 : firstn istep (map L (seq 0 (1 + istep))) = map L (seq 0 istep)).
      { cbn [Nat.add]. rewrite seq_S, map_app, firstn_app, map_length, seq_length, Nat.sub_diag.
        cbn [firstn]. rewrite app_nil_r. apply firstn_all2. rewrite map_length, seq_length. lia. }
      assert (HR : length (rowsv istep) = istep) by (unfold rowsv; rewrite map_length, seq_length; auto).
      assert (HF2 : firstn istep (rowsv istep ++ pzero :: repeat pzero m) = rowsv istep).
      { rewrite firstn_app, HR, Nat.sub_diag. cbn [firstn]. rewrite app_nil_r.
        apply firstn_all2. lia. }
      destruct bad eqn:EB; unfold bad in EB.
      + assert (HNC : ~ clean (v istep)) by (rewrite <- has_nans_iff; congruence).
        assert (HSB : forall s, bad_at s -> s = istep).
        { intros s (H1 & H2). destruct (lt_eq_lt_dec s istep) as [[H|H]|H]; auto.
          - exfalso. apply H2. apply HG; auto.
          - exfalso. apply HNC. apply H1; auto. }
        split; [|split].
        * intros s Hs HB. apply HSB in HB. subst s.
          destruct istep as [|i]; [left; split; reflexivity|]. right. split; [lia|].
          destruct (best_losses (Datatypes.S i)) as (b & N & FB); [lia| |].
          { intros k Hk. apply (HG k Hk). }
          exists b. split; [exact FB|].
          rewrite HF1, HF2. change (Nat.ltb 0 (Datatypes.S i)) with true. cbv iota.
          rewrite N. cbn [bind].
          rewrite (getitem_nth _ b (pcast (v b))).
          2:{ rewrite nth_error_app1 by (rewrite HR; apply FB). apply nth_visited. apply FB. }
          rewrite (getitem_nth _ b (L b)).
          2:{ apply nth_losses. destruct FB. lia. }
          reflexivity.
        * intros s Hs (H1 & H2 & H3). exfalso.
          destruct (lt_eq_lt_dec s istep) as [[H|H]|H].
          -- pose proof (going_tol _ (HG s H)) as HX. congruence.
          -- subst. contradiction.
          -- apply HNC. apply H1; auto.
        * intros HA. exfalso. apply HNC. apply HA. lia.
      + apply has_nans_iff in EB.
        replace (setrow (rowsv istep ++ pzero :: repeat pzero m) istep (pcast (v istep)))
          with (rowsv (1 + istep) ++ repeat pzero m).
        2:{ pose proof (setrow_end (rowsv istep) (pcast (v istep)) pzero (repeat pzero m)) as HX.
            rewrite HR in HX. rewrite HX. unfold rowsv. cbn [Nat.add].
            rewrite seq_S, map_app, <- app_assoc. reflexivity. }
        change (fst (lg (v istep))) with (L istep).
        destruct (xltb (L istep) tol) eqn:ET.
        * split; [|split].
          -- intros s Hs (H1 & H2). exfalso.
             destruct (lt_eq_lt_dec s istep) as [[H|H]|H].
             ++ apply H2. apply HG; auto.
             ++ subst. contradiction.
             ++ pose proof (going_tol _ (H1 istep H)) as HX. congruence.
          -- intros s Hs (H1 & H2 & H3).
             assert (s = istep).
             { destruct (lt_eq_lt_dec s istep) as [[H|H]|H]; auto.
               - pose proof (going_tol _ (HG s H)) as HX. congruence.
               - pose proof (going_tol _ (H1 istep H)) as HX. congruence. }
             subst s. replace (n - (1 + istep))%nat with m by lia. reflexivity.
          -- intros HA. exfalso. pose proof (going_tol _ (HA istep ltac:(lia))) as HX. congruence.
        * apply (IH (Datatypes.S istep)); [lia|].
          intros k Hk. destruct (Nat.eq_dec k istep) as [->|Hne]; [split; auto|].
          apply HG. lia.
  Qed.

  Lemma adam_outcome n : outcome n (AW params_init n step_size tol).
  Proof. exact (loop_outcome n n 0 eq_refl ltac:(intros k Hk; lia)). Qed.

  (** One of the three cases always applies. *)
  Lemma adam_cases n :
    (exists s, (s < n)%nat /\ bad_at s) \/ (exists s, (s < n)%nat /\ tol_at s) \/
    (forall k, (k < n)%nat -> going k).
  Proof.
    induction n as [|n IH]; [right; right; intros; lia|].
    destruct IH as [(s & Hs & H)|[(s & Hs & H)|H]].
    - left. exists s. split; [lia|auto].
    - right. left. exists s. split; [lia|auto].
    - destruct (negb (pfinite (v n)) || negb (xisfinite (fst (lg (v n))))
                || negb (gfinite (snd (lg (v n)))))%bool eqn:E.
      + left. exists n. split; [lia|]. split; [auto|]. rewrite <- has_nans_iff. congruence.
      + apply has_nans_iff in E. destruct (xltb (L n) tol) eqn:ET.
        * right. left. exists n. split; [lia|]. split; auto.
        * right. right. intros k Hk. destruct (Nat.eq_dec k n) as [->|Hne]; [split; auto|].
          apply H. lia.
  Qed.
End AdamFacts.

Section WrapperFacts.
  Context {P G S : Type}.
  Variable pfinite : P -> bool.
  Variable gfinite : G -> bool.
  Variable pcast : P -> P.
  Variable pzero : P.
  Variable adam : R -> optimizer P G S.
  Variable lg : P -> xr * G.

  (** The optimiser starts from its input, and the loss does not see the
      single-precision cast (it is evaluated in single precision). *)
  Hypothesis Hget : forall s p, get_params (adam s) (opt_init (adam s) p) = p.
  Hypothesis Hcast : forall p, lg (pcast p) = lg p.
  Hypothesis Hpcast : forall p, pfinite p = true -> pfinite (pcast p) = true.

  Notation AW := (jax_adam_wrapper_ pfinite gfinite pcast pzero adam lg).
  Notation JW := (jax_adam_wrapper pfinite gfinite pcast pzero adam lg).
  Notation clean := (clean pfinite gfinite lg).

  Definition improves (r0 : R) (p : P) (l : xr) : Prop :=
    clean p /\ fst (lg p) = l /\ exists r, l = Fin r /\ r <= r0.

  Lemma clean_cast p : clean p -> clean (pcast p).
  Proof.
    intros (A & B & C). unfold Spec_Fitter.clean. rewrite !Hcast. auto.
  Qed.

  Lemma tol_less a b tol : xltb (Fin a) tol = true -> xltb (Fin b) tol = false -> a < b.
  Proof.
    destruct tol as [t| | |]; cbn; try discriminate.
    rewrite Rltb_true, Rltb_false. lra.
  Qed.

  Lemma burn_improves p n s tol r0 : (0 < n)%nat -> clean p -> fst (lg p) = Fin r0 ->
    exists fr, AW p n s tol = Ok fr /\ improves r0 (b_params fr) (b_loss fr).
  Proof.
    intros Hn HC HL.
    destruct (adam_outcome pfinite gfinite pcast pzero adam lg tol p s n) as (O1 & O2 & O3).
    assert (HV : visited (adam s) lg p 0 = p) by apply Hget.
    assert (HB : forall m b, (0 < m)%nat ->
              (forall k, (k < m)%nat -> carries_on pfinite gfinite lg tol (visited (adam s) lg p k)) ->
              first_best (fun k => fst (lg (visited (adam s) lg p k))) m b ->
              improves r0 (pcast (visited (adam s) lg p b)) (fst (lg (visited (adam s) lg p b)))).
    { intros m b Hm HK (Hb & rb & E & H1 & _). split; [apply clean_cast, (HK b Hb)|].
      rewrite Hcast. split; [reflexivity|]. exists rb. split; [exact E|].
      apply (H1 0%nat); [lia|]. now rewrite HV. }
    destruct (adam_cases pfinite gfinite pcast pzero adam lg tol p s n) as [(k & Hk & H)|[(k & Hk & H)|H]].
    - destruct (O1 k Hk H) as [(-> & _)|(Hk0 & b & FB & E)].
      + exfalso. destruct H as (_ & H). apply H. now rewrite HV.
      + eexists. split; [exact E|]. cbn [b_params b_loss]. apply (HB k); auto. apply H.
    - eexists. split; [exact (O2 k Hk H)|]. cbn [b_params b_loss].
      destruct H as (H1 & H2 & H3). split; [exact H2|]. split; [reflexivity|].
      destruct H2 as (_ & (r & E) & _). exists r. split; [exact E|].
      destruct k as [|k].
      + rewrite HV, HL in E. injection E as ->. lra.
      + destruct (H1 0%nat ltac:(lia)) as (_ & H0). rewrite HV, HL in H0. rewrite E in H3.
        left. exact (tol_less _ _ _ H3 H0).
    - destruct (O3 H) as [(-> & _)|(_ & b & FB & E)]; [lia|].
      eexists. split; [exact E|]. cbn [b_params b_loss]. apply (HB n); auto.
  Qed.

  Lemma warmup_improves n : forall wn ws tol p l fr r0, (0 < wn)%nat ->
    clean p -> fst (lg p) = Fin r0 ->
    (l = PInf \/ l = Fin r0) -> (l = PInf <-> fr = None) ->
    (forall f, fr = Some f -> b_params f = p /\ b_loss f = l) ->
    exists p' l' fr' r', warmup pfinite gfinite pcast pzero adam lg n wn ws tol p l fr
        = Ok (p', l', fr') /\
      clean p' /\ fst (lg p') = Fin r' /\ r' <= r0 /\
      (l' = PInf \/ l' = Fin r') /\ (l' = PInf <-> fr' = None) /\
      (forall f, fr' = Some f -> b_params f = p' /\ b_loss f = l') /\
      (fr' = None -> n = 0%nat).
  Proof.
    induction n as [|n IH]; intros wn ws tol p l fr r0 Hw HC HL Hl HN HF.
    - exists p, l, fr, r0. cbn [warmup].
      refine (conj eq_refl (conj HC (conj HL (conj (Rle_refl _) (conj Hl (conj HN (conj HF _))))))).
      reflexivity.
    - cbn [warmup]. destruct (burn_improves p wn ws tol r0 Hw HC HL) as (f & E & (C & D & r & Er & Hr)).
      rewrite E. cbn [bind].
      destruct (IH wn ws tol (b_params f) (b_loss f) (Some f) r Hw C) as
        (p' & l' & fr' & r' & W & A1 & A2 & A3 & A4 & A5 & A6 & A7).
      + now rewrite D.
      + right. exact Er.
      + rewrite Er. split; discriminate.
      + intros f' Hf. injection Hf as <-. auto.
      + exists p', l', fr', r'. rewrite W.
        refine (conj eq_refl (conj A1 (conj A2 (conj _ (conj A4 (conj A5 (conj A6 _))))))); [lra|].
        intros HX. specialize (A7 HX). subst n. cbn [warmup] in W. congruence.
  Qed.

  Lemma wrapper_improves p n_step n_warmup s wn ws tol r0 :
    (0 < n_step)%nat -> (0 < wn)%nat -> (0 < n_warmup)%nat \/ xltb tol PInf = true ->
    clean p -> fst (lg p) = Fin r0 ->
    exists fr flag, JW p n_step n_warmup s wn ws tol = Ok (fr, flag) /\
      improves r0 (b_params fr) (b_loss fr) /\
      (flag = true <-> (n_step <= length (b_loss_arr fr))%nat).
  Proof.
    intros Hn Hw Hor HC HL. unfold jax_adam_wrapper.
    destruct (warmup_improves n_warmup wn (match ws with None => 5 * s | Some x => x end) tol p PInf None r0)
      as (p' & l' & fr' & r' & W & A1 & A2 & A3 & A4 & A5 & A6 & A7); auto.
    { split; auto. } { discriminate. }
    cbv zeta. rewrite W. cbn [bind].
    assert (HP : (if pfinite p' then p' else p) = p') by (destruct A1 as (-> & _); reflexivity).
    rewrite HP.
    assert (HFL : forall fr : burn P, (negb (Nat.ltb (length (b_loss_arr fr)) n_step) = true
                  <-> (n_step <= length (b_loss_arr fr))%nat)).
    { intros fr. rewrite negb_true_iff, Nat.ltb_ge. reflexivity. }
    destruct (xltb tol l') eqn:E.
    - destruct (burn_improves p' n_step s tol r' Hn A1 A2) as (f & EF & (C & D & r & Er & Hr)).
      rewrite EF. cbn [bind]. eexists; eexists. split; [reflexivity|]. split; [|apply HFL].
      split; [exact C|]. split; [exact D|]. exists r. split; [exact Er|]. lra.
    - cbn [bind]. destruct fr' as [f|].
      + eexists; eexists. split; [reflexivity|]. split; [|apply HFL].
        destruct (A6 f eq_refl) as (E1 & E2). rewrite E1, E2.
        assert (HL' : l' = Fin r') by (destruct A4; auto; exfalso; destruct A5 as [A5 _]; discriminate (A5 H)).
        split; [exact A1|]. rewrite HL'. split; [exact A2|]. exists r'. split; [auto|lra].
      + exfalso. destruct A5 as [_ A5]. rewrite A5 in E by reflexivity. specialize (A7 eq_refl).
        subst n_warmup. destruct Hor as [H|H]; [lia|congruence].
  Qed.
End WrapperFacts.
