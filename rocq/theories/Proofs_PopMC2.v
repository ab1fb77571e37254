(** Lemmas on generated populations, their moments and losses. *)

From Coq Require Import Reals String List Bool Arith Lia Lra.
From Verif Require Import Model_Num RealAux Model_Base Model_Kernels Model_Utils Model_PopBase Model_PopData
  Model_PopParams Model_PopKernels Model_PopMC Proofs_Kernels Spec_Kernels Spec_Utils Spec_Pop Spec_PopMC Spec_TruncNorm
  Proofs_PopTpeak Proofs_PopProps Proofs_PopMC.
Import ListNotations.
Local Open Scope list_scope.

(** ** vmap *)

Lemma mseq_map_inv {X Y} (f : X -> mc Y) l rs tr : mseq (map f l) = (Ok rs, tr) ->
  length rs = length l /\ exists trs, length trs = length l /\ tr = concat trs /\
  forall i x, nth_error l i = Some x -> exists r t, nth_error rs i = Some r /\ nth_error trs i = Some t /\ f x = (Ok r, t).
Proof.
  intros H. apply mseq_ok in H. destruct H as (trs & E & L & ->).
  assert (LL : length rs = length l).
  { pose proof (map_length f l) as X1. pose proof (combine_length (map Ok rs) trs) as X2. rewrite E in X1.
    rewrite map_length in X2. unfold mc in *. lia. }
  split; [exact LL|]. exists trs. refine (conj _ (conj eq_refl _)); [lia|].
  intros i x Hi. assert (B : (i < length l)%nat) by (apply nth_error_Some; congruence).
  destruct (nth_error rs i) as [r|] eqn:Er; [|apply nth_error_None in Er; lia].
  destruct (nth_error trs i) as [t|] eqn:Et; [|apply nth_error_None in Et; lia].
  exists r, t. refine (conj eq_refl (conj eq_refl _)).
  apply (f_equal (fun z => nth_error z i)) in E. rewrite (map_nth_error f i l Hi) in E.
  assert (C : forall (a : list (res Y)) (b : list (list draw)) j u v, nth_error a j = Some u -> nth_error b j = Some v ->
    nth_error (combine a b) j = Some (u, v)).
  { induction a as [|a0 a IH]; intros [|b0 b] [|j] u v Hu Hv; cbn in *; try discriminate.
    - now injection Hu as ->; injection Hv as ->.
    - now apply IH. }
  rewrite (C _ _ _ (Ok r) t) in E; [now injection E|now apply map_nth_error|exact Et].
Qed.

Lemma mseq_map_total {X Y} (f : X -> mc Y) l : (forall x, In x l -> exists r t, f x = (Ok r, t)) ->
  exists rs tr, mseq (map f l) = (Ok rs, tr).
Proof.
  induction l as [|x l IH]; intros H.
  - now exists [], [].
  - destruct (H x (or_introl eq_refl)) as (r & t & E). destruct IH as (rs & tr & E2).
    { intros y Hy. apply H. now right. }
    cbn [map mseq]. do 2 eexists. eapply mbind_eval; [exact E|]. eapply mbind_eval; [exact E2|]. reflexivity.
Qed.

Lemma nth_combine {X Y} (a : list X) (b : list Y) i x y : nth_error a i = Some x -> nth_error b i = Some y ->
  nth_error (combine a b) i = Some (x, y).
Proof.
  revert b i. induction a as [|a0 a IH]; intros [|b0 b] [|i] Ha Hb; cbn in *; try discriminate.
  - now injection Ha as ->; injection Hb as ->.
  - now apply IH.
Qed.

Lemma vmap3_inv {X Y W} (f : X -> Y -> key -> mc W) xs ys ks rs tr : vmap3 f xs ys ks = (Ok rs, tr) ->
  length ys = length xs /\ length ks = length xs /\ length rs = length xs /\
  exists trs, length trs = length xs /\ tr = concat trs /\
  forall i x y k, nth_error xs i = Some x -> nth_error ys i = Some y -> nth_error ks i = Some k ->
    exists r t, nth_error rs i = Some r /\ nth_error trs i = Some t /\ f x y k = (Ok r, t).
Proof.
  unfold vmap3. destruct (Nat.eqb_spec (length xs) (length ys)) as [E1|]; [|discriminate].
  destruct (Nat.eqb_spec (length xs) (length ks)) as [E2|]; [|discriminate]. cbn [andb].
  intros H. apply mseq_map_inv in H. destruct H as (L & trs & Lt & -> & H).
  rewrite !combine_length in *. refine (conj _ (conj _ (conj _ _))); [lia..|].
  exists trs. refine (conj _ (conj eq_refl _)); [lia|]. intros i x y k Hx Hy Hk.
  destruct (H i ((x, y), k)) as (r & t & Hr & Ht & E); [now repeat apply nth_combine|]. now exists r, t.
Qed.

Lemma vmap3_total {X Y W} (f : X -> Y -> key -> mc W) xs ys ks : length ys = length xs -> length ks = length xs ->
  (forall x y k, exists r t, f x y k = (Ok r, t)) -> exists rs tr, vmap3 f xs ys ks = (Ok rs, tr).
Proof.
  intros E1 E2 H. unfold vmap3. rewrite E1, E2, Nat.eqb_refl. cbn [andb]. apply mseq_map_total. intros x _. apply H.
Qed.

Lemma vmap4_inv {X Y Z W} (f : X -> Y -> key -> Z -> mc W) xs ys ks zs rs tr : vmap4 f xs ys ks zs = (Ok rs, tr) ->
  length ys = length xs /\ length ks = length xs /\ length zs = length xs /\ length rs = length xs /\
  exists trs, length trs = length xs /\ tr = concat trs /\
  forall i x y k z, nth_error xs i = Some x -> nth_error ys i = Some y -> nth_error ks i = Some k -> nth_error zs i = Some z ->
    exists r t, nth_error rs i = Some r /\ nth_error trs i = Some t /\ f x y k z = (Ok r, t).
Proof.
  unfold vmap4. destruct (Nat.eqb_spec (length xs) (length ys)) as [E1|]; [|discriminate].
  destruct (Nat.eqb_spec (length xs) (length ks)) as [E2|]; [|discriminate].
  destruct (Nat.eqb_spec (length xs) (length zs)) as [E3|]; [|discriminate]. cbn [andb].
  intros H. apply mseq_map_inv in H. destruct H as (L & trs & Lt & -> & H).
  rewrite !combine_length in *. refine (conj _ (conj _ (conj _ (conj _ _)))); [lia..|].
  exists trs. refine (conj _ (conj eq_refl _)); [lia|]. intros i x y k z Hx Hy Hk Hz.
  destruct (H i (((x, y), k), z)) as (r & t & Hr & Ht & E); [now repeat apply nth_combine|]. now exists r, t.
Qed.

Lemma vmap4_total {X Y Z W} (f : X -> Y -> key -> Z -> mc W) xs ys ks zs : length ys = length xs -> length ks = length xs ->
  length zs = length xs ->
  (forall x y k z, exists r t, f x y k z = (Ok r, t)) -> exists rs tr, vmap4 f xs ys ks zs = (Ok rs, tr).
Proof.
  intros E1 E2 E3 H. unfold vmap4. rewrite E1, E2, E3, Nat.eqb_refl. cbn [andb]. apply mseq_map_total. intros x _. apply H.
Qed.

(** ** Keys *)

Lemma split_length k n : length (split k n) = n.
Proof. unfold split. now rewrite map_length, seq_length. Qed.

Lemma split_nth k n i : (i < n)%nat -> nth_error (split k n) i = Some (Split k n i).
Proof.
  intros H. unfold split. rewrite (map_nth_error _ i (seq 0 n) (d := i)); [reflexivity|].
  rewrite (nth_error_nth' _ 0%nat) by now rewrite seq_length. now rewrite seq_nth.
Qed.

Lemma split_last k n d : last (split k (n + 1)) d = Split k (n + 1) n /\
  removelast (split k (n + 1)) = map (Split k (n + 1)) (seq 0 n).
Proof.
  unfold split. rewrite seq_app, map_app. cbn [seq map plus]. now rewrite last_last, removelast_last.
Qed.

Lemma seq_map_nth k n m i : (i < n)%nat -> nth_error (map (Split k m) (seq 0 n)) i = Some (Split k m i).
Proof.
  intros H. rewrite (map_nth_error _ i (seq 0 n) (d := i)); [reflexivity|].
  rewrite (nth_error_nth' _ 0%nat) by now rewrite seq_length. now rewrite seq_nth.
Qed.

(** ** Selection *)

Section Select.
  Context {A : Type} {N : Num A}.

  Lemma where_list_length c (x y : list A) : length x = length c -> length y = length c ->
    length (where_list c x y) = length c.
  Proof.
    revert x y. induction c as [|b c IH]; intros [|x0 x] [|y0 y] Hx Hy; cbn in *; try discriminate; [reflexivity|].
    f_equal. apply IH; lia.
  Qed.

  Lemma where_list_nth c (x y : list A) i b u v : nth_error c i = Some b -> nth_error x i = Some u -> nth_error y i = Some v ->
    nth_error (where_list c x y) i = Some (if b then u else v).
  Proof.
    revert x y i. induction c as [|b0 c IH]; intros [|x0 x] [|y0 y] [|i] Hb Hx Hy; cbn in *; try discriminate.
    - injection Hb as ->. injection Hx as ->. injection Hy as ->. reflexivity.
    - now apply IH.
  Qed.

  Lemma where_rows_length c (x y : list (list A)) : length x = length c -> length y = length c ->
    length (where_rows c x y) = length c.
  Proof.
    revert x y. induction c as [|b c IH]; intros [|x0 x] [|y0 y] Hx Hy; cbn in *; try discriminate; [reflexivity|].
    f_equal. apply IH; lia.
  Qed.

  Lemma where_rows_nth c (x y : list (list A)) i b u v : nth_error c i = Some b -> nth_error x i = Some u -> nth_error y i = Some v ->
    nth_error (where_rows c x y) i = Some (if b then u else v).
  Proof.
    revert x y i. induction c as [|b0 c IH]; intros [|x0 x] [|y0 y] [|i] Hb Hx Hy; cbn in *; try discriminate.
    - injection Hb as ->. injection Hx as ->. injection Hy as ->. reflexivity.
    - now apply IH.
  Qed.

  Lemma select_length (P Q : DiffmahParams (list A)) c : n_rows P (length c) -> n_rows Q (length c) ->
    n_rows (mc_select_diffmah_params P Q c) (length c).
  Proof.
    intros (p1 & p2 & p3 & p4 & p5) (q1 & q2 & q3 & q4 & q5).
    refine (conj _ (conj _ (conj _ (conj _ _)))); cbn; apply where_list_length; assumption.
  Qed.

  Lemma select_row (P Q : DiffmahParams (list A)) c i b p q : nth_error c i = Some b -> row_is P i p -> row_is Q i q ->
    row_is (mc_select_diffmah_params P Q c) i (if b then p else q).
  Proof.
    intros Hb (p1 & p2 & p3 & p4 & p5) (q1 & q2 & q3 & q4 & q5).
    refine (conj _ (conj _ (conj _ (conj _ _)))); cbn;
      (erewrite where_list_nth; [|eassumption..]); destruct b; reflexivity.
  Qed.

  Lemma columns_rows (l : list (DiffmahParams A)) : n_rows (columns l) (length l).
  Proof. refine (conj _ (conj _ (conj _ (conj _ _)))); cbn; apply map_length. Qed.

  Lemma columns_row (l : list (DiffmahParams A)) i p : nth_error l i = Some p -> row_is (columns l) i p.
  Proof. intros H. refine (conj _ (conj _ (conj _ (conj _ _)))); cbn; now apply map_nth_error. Qed.

  Lemma lt_list_length (x y : list A) : length x = length y -> length (lt_list x y) = length y.
  Proof. intros H. unfold lt_list. rewrite map_length, combine_length. lia. Qed.

  Lemma lt_list_nth (x y : list A) i u v : nth_error x i = Some u -> nth_error y i = Some v ->
    nth_error (lt_list x y) i = Some (nltb u v).
  Proof.
    intros Hx Hy. unfold lt_list. rewrite (map_nth_error _ i (combine x y) (d := (u, v))); [reflexivity|].
    now apply nth_combine.
  Qed.
End Select.

(** ** Populations *)

Section Pop.
  Context {A : Type} {N : Num A}.
  Variables (F : A -> A -> A -> A -> A -> A) (G : rng A).

  Lemma single_mah_inv g p tarr lgm t k lgt0 h tr : mc_diffmah_single F G g p tarr lgm t k lgt0 = (Ok h, tr) ->
    mc_diffmah_params_single F G g p lgm t k lgt0 None = (Ok (pr_early h, pr_late h, pr_frac h), tr) /\
    mah_singlehalo (pr_early h) tarr lgt0 = (pr_dmhdt_early h, pr_log_mah_early h) /\
    mah_singlehalo (pr_late h) tarr lgt0 = (pr_dmhdt_late h, pr_log_mah_late h).
  Proof.
    unfold mc_diffmah_single. intros H. apply mbind_ok in H. destruct H as ([[e l] f] & t1 & t2 & H1 & H & ->).
    destruct (mah_singlehalo e tarr lgt0) as [de me] eqn:Ee. destruct (mah_singlehalo l tarr lgt0) as [dl ml] eqn:El.
    apply mret_ok in H. destruct H as [-> ->]. cbn. rewrite app_nil_r. auto.
  Qed.

  Lemma single_mah_total g p tarr lgm t k lgt0 e l f tr :
    mc_diffmah_params_single F G g p lgm t k lgt0 None = (Ok (e, l, f), tr) ->
    exists h tr', mc_diffmah_single F G g p tarr lgm t k lgt0 = (Ok h, tr').
  Proof.
    intros H. unfold mc_diffmah_single.
    destruct (mah_singlehalo e tarr lgt0) as [de me] eqn:Ee. destruct (mah_singlehalo l tarr lgt0) as [dl ml] eqn:El.
    do 2 eexists. eapply mbind_eval; [exact H|]. cbn beta iota. rewrite Ee, El. reflexivity.
  Qed.

  (** The halos generated by mc_cenpop and mc_satpop *)
  Lemma mc_pop_inv g p tarr lgms ts k lgt0 P dm lm tr : shapely G ->
    mc_pop F G g p tarr lgms ts k lgt0 = (Ok (P, dm, lm), tr) ->
    let n := length lgms in
    let us := uniforms G (Split k (n + 1) n) n in
    length ts = n /\ n_rows P n /\ length dm = n /\ length lm = n /\
    exists trs, length trs = n /\ tr = concat trs ++ [Uniform (Split k (n + 1) n)] /\
    forall i lgm t u, nth_error lgms i = Some lgm -> nth_error ts i = Some t -> nth_error us i = Some u ->
      exists e l f tri, nth_error trs i = Some tri /\
        mc_diffmah_params_single F G g p lgm t (Split k (n + 1) i) lgt0 None = (Ok (e, l, f), tri) /\
        let h := if nltb u f then e else l in
        row_is P i h /\
        nth_error dm i = Some (fst (mah_singlehalo h tarr lgt0)) /\
        nth_error lm i = Some (snd (mah_singlehalo h tarr lgt0)).
  Proof.
    intros [HU _]. unfold mc_pop. set (n := length lgms). cbv zeta.
    destruct (split_last k n k) as [EL ER]. rewrite EL, ER. intros H.
    apply mbind_ok in H. destruct H as (r & t1 & t2 & H1 & H & ->).
    apply mbind_ok in H. destruct H as (us & t3 & t4 & D & H & ->). injection D as <- <-.
    apply mret_ok in H. destruct H as [E ->]. injection E as -> -> ->.
    unfold mc_diffmah_single_vmap in H1. apply vmap3_inv in H1.
    destruct H1 as (L1 & L2 & L3 & trs & Lt & -> & H1). fold n in L1, L2, L3, Lt.
    set (us := uniforms G (Split k (n + 1) n) n). assert (Lu : length us = n) by apply HU.
    set (c := lt_list us (map pr_frac r)).
    assert (Lc : length c = n).
    { unfold c. rewrite lt_list_length; rewrite map_length; [exact L3|now rewrite L3, Lu]. }
    refine (conj L1 (conj _ (conj _ (conj _ _)))).
    - rewrite <- Lc. apply select_length; rewrite Lc, <- L3; [rewrite <- (map_length pr_early r)|rewrite <- (map_length pr_late r)]; apply columns_rows.
    - rewrite <- Lc. apply where_rows_length; rewrite map_length; lia.
    - rewrite <- Lc. apply where_rows_length; rewrite map_length; lia.
    - exists trs. refine (conj Lt (conj _ _)); [now rewrite app_nil_r|].
      intros i lgm t u Hl Ht Hu. assert (B : (i < n)%nat) by (apply nth_error_Some; congruence).
      destruct (H1 i lgm t (Split k (n + 1) i) Hl Ht) as (h & tri & Hr & Htr & E); [now apply seq_map_nth|].
      apply single_mah_inv in E. destruct E as (E & Me & Ml).
      exists (pr_early h), (pr_late h), (pr_frac h), tri. refine (conj Htr (conj E _)). cbv zeta.
      assert (Hc : nth_error c i = Some (nltb u (pr_frac h))).
      { apply lt_list_nth; [exact Hu|now apply map_nth_error]. }
      refine (conj _ (conj _ _)).
      + apply select_row with (1 := Hc); apply columns_row; now apply map_nth_error.
      + rewrite (where_rows_nth _ _ _ i _ (pr_dmhdt_early h) (pr_dmhdt_late h) Hc); [|now apply map_nth_error..].
        destruct (nltb u (pr_frac h)); [rewrite Me|rewrite Ml]; reflexivity.
      + rewrite (where_rows_nth _ _ _ i _ (pr_log_mah_early h) (pr_log_mah_late h) Hc); [|now apply map_nth_error..].
        destruct (nltb u (pr_frac h)); [rewrite Me|rewrite Ml]; reflexivity.
  Qed.

  (** The peak time given to halo [i], if any *)
  Definition given_tp (otp : option (list A)) (i : nat) : option A :=
    match otp with Some l => nth_error l i | None => None end.

  Lemma mc_diffmah_pop_inv g p lgms ts k lgt0 otp H tr : shapely G ->
    mc_diffmah_pop F G g p lgms ts k lgt0 otp = (Ok H, tr) ->
    let n := length lgms in
    let us := uniforms G (Split k 2 0) n in
    length ts = n /\ match otp with Some l => length l = n | None => True end /\
    n_rows (hp_mah_params H) n /\ n_rows (hp_mah_params_early H) n /\ n_rows (hp_mah_params_late H) n /\
    length (hp_frac_early_cens H) = n /\ length (hp_mc_early H) = n /\
    exists trs, length trs = n /\ tr = concat trs ++ [Uniform (Split k 2 0)] /\
    forall i lgm t u, nth_error lgms i = Some lgm -> nth_error ts i = Some t -> nth_error us i = Some u ->
      exists e l f tri, nth_error trs i = Some tri /\
        mc_diffmah_params_single F G g p lgm t (Split (Split k 2 1) n i) lgt0 (given_tp otp i) = (Ok (e, l, f), tri) /\
        row_is (hp_mah_params_early H) i e /\ row_is (hp_mah_params_late H) i l /\
        nth_error (hp_frac_early_cens H) i = Some f /\ nth_error (hp_mc_early H) i = Some (nltb u f) /\
        row_is (hp_mah_params H) i (if nltb u f then e else l).
  Proof.
    intros [HU _]. unfold mc_diffmah_pop. set (n := length lgms). cbv zeta. intros E.
    apply mbind_ok in E. destruct E as (r & t1 & t2 & H1 & E & ->).
    apply mbind_ok in E. destruct E as (us & t3 & t4 & D & E & ->). injection D as <- <-.
    apply mret_ok in E. destruct E as [-> ->].
    assert (Q : length ts = n /\ match otp with Some l => length l = n | None => True end /\ length r = n /\
      exists trs, length trs = n /\ t1 = concat trs /\
      forall i lgm t, nth_error lgms i = Some lgm -> nth_error ts i = Some t ->
        exists e l f tri, nth_error r i = Some (e, l, f) /\ nth_error trs i = Some tri /\
        mc_diffmah_params_single F G g p lgm t (Split (Split k 2 1) n i) lgt0 (given_tp otp i) = (Ok (e, l, f), tri)).
    { destruct otp as [tp|].
      - apply vmap4_inv in H1. destruct H1 as (L1 & L2 & L3 & L4 & trs & Lt & -> & H1). fold n in L1, L2, L3, L4, Lt.
        refine (conj L1 (conj L3 (conj L4 _))). exists trs. refine (conj Lt (conj eq_refl _)).
        intros i lgm t Hl Ht. assert (B : (i < n)%nat) by (apply nth_error_Some; congruence).
        destruct (nth_error tp i) as [x|] eqn:Hx; [|apply nth_error_None in Hx; lia].
        destruct (H1 i lgm t (Split (Split k 2 1) n i) x Hl Ht) as ([[e l] f] & tri & Hr & Htr & E);
          [now apply split_nth|exact Hx|].
        exists e, l, f, tri. cbn [given_tp]. rewrite Hx. auto.
      - apply vmap3_inv in H1. destruct H1 as (L1 & L2 & L4 & trs & Lt & -> & H1). fold n in L1, L2, L4, Lt.
        refine (conj L1 (conj I (conj L4 _))). exists trs. refine (conj Lt (conj eq_refl _)).
        intros i lgm t Hl Ht. assert (B : (i < n)%nat) by (apply nth_error_Some; congruence).
        destruct (H1 i lgm t (Split (Split k 2 1) n i) Hl Ht) as ([[e l] f] & tri & Hr & Htr & E);
          [now apply split_nth|].
        exists e, l, f, tri. auto. }
    destruct Q as (L1 & Lo & L3 & trs & Lt & -> & Q). rewrite !map_length, L3.
    set (us := uniforms G (Split k 2 0) n). assert (Lu : length us = n) by apply HU.
    set (c := lt_list us (map snd r)).
    assert (Lc : length c = n).
    { unfold c. rewrite lt_list_length; rewrite map_length; [exact L3|now rewrite L3, Lu]. }
    cbn [hp_mah_params hp_mah_params_early hp_mah_params_late hp_frac_early_cens hp_mc_early].
    assert (Re : n_rows (columns (map (fun x : DiffmahParams A * DiffmahParams A * A => fst (fst x)) r)) n).
    { rewrite <- L3. rewrite <- (map_length (fun x => fst (fst x)) r). apply columns_rows. }
    assert (Rl : n_rows (columns (map (fun x : DiffmahParams A * DiffmahParams A * A => snd (fst x)) r)) n).
    { rewrite <- L3. rewrite <- (map_length (fun x => snd (fst x)) r). apply columns_rows. }
    refine (conj L1 (conj Lo (conj _ (conj Re (conj Rl (conj _ (conj Lc _))))))).
    - rewrite <- Lc. apply select_length; rewrite Lc; assumption.
    - rewrite map_length. exact L3.
    - exists trs. refine (conj Lt (conj _ _)); [now rewrite app_nil_r|].
      intros i lgm t u Hl Ht Hu. destruct (Q i lgm t Hl Ht) as (e & l & f & tri & Hr & Htr & E).
      exists e, l, f, tri. refine (conj Htr (conj E _)).
      assert (He : row_is (columns (map (fun x => fst (fst x)) r)) i e).
      { apply columns_row. exact (map_nth_error (fun x => fst (fst x)) i r Hr). }
      assert (Hll : row_is (columns (map (fun x => snd (fst x)) r)) i l).
      { apply columns_row. exact (map_nth_error (fun x => snd (fst x)) i r Hr). }
      assert (Hf : nth_error (map snd r) i = Some f) by exact (map_nth_error snd i r Hr).
      assert (Hc : nth_error c i = Some (nltb u f)) by now apply lt_list_nth.
      refine (conj He (conj Hll (conj Hf (conj Hc _)))). now apply select_row.
  Qed.
End Pop.

(** ** Totality on the reals *)

Lemma mc_pop_total (G : rng R) g (p : rec R) tarr lgms ts k lgt0 : legal_pop p -> shapely G -> length ts = length lgms ->
  exists P dm lm tr, mc_pop TN G g p tarr lgms ts k lgt0 = (Ok (P, dm, lm), tr).
Proof.
  intros L HG E. unfold mc_pop. cbv zeta. destruct (split_last k (length lgms) k) as [EL ER]. rewrite EL, ER.
  destruct (vmap3_total (fun m t k => mc_diffmah_single TN G g p tarr m t k lgt0) lgms ts
    (map (Split k (length lgms + 1)) (seq 0 (length lgms)))) as (r & tr & Er).
  - exact E.
  - now rewrite map_length, seq_length.
  - intros m t k'. destruct (single_total G g p m t k' lgt0 None L HG) as (e & l & f & tr & Es).
    eapply single_mah_total. exact Es.
  - do 4 eexists. eapply mbind_eval; [exact Er|]. eapply mbind_eval; [reflexivity|]. reflexivity.
Qed.

Lemma mc_pop_lengths {A} {N : Num A} F (G : rng A) g p tarr lgms ts k lgt0 : length ts <> length lgms ->
  fst (mc_pop F G g p tarr lgms ts k lgt0) = Err ValueError.
Proof.
  intros H. unfold mc_pop, mc_diffmah_single_vmap, vmap3. destruct (Nat.eqb_spec (length lgms) (length ts)); [congruence|].
  reflexivity.
Qed.

Lemma mc_diffmah_pop_total (G : rng R) g (p : rec R) lgms ts k lgt0 otp : legal_pop p -> shapely G -> length ts = length lgms ->
  match otp with Some l => length l = length lgms | None => True end ->
  exists H tr, mc_diffmah_pop TN G g p lgms ts k lgt0 otp = (Ok H, tr).
Proof.
  intros L HG E Eo. unfold mc_diffmah_pop. cbv zeta.
  destruct otp as [tp|].
  - destruct (vmap4_total (fun m t k x => mc_diffmah_params_single TN G g p m t k lgt0 (Some x)) lgms ts
      (split (Split k 2 1) (length lgms)) tp) as (r & tr & Er);
      [exact E|apply split_length|exact Eo| |].
    + intros m t k' x. destruct (single_total G g p m t k' lgt0 (Some x) L HG) as (e & l & f & tr & Es). eauto.
    + do 2 eexists. eapply mbind_eval; [exact Er|]. eapply mbind_eval; [reflexivity|]. reflexivity.
  - destruct (vmap3_total (fun m t k => mc_diffmah_params_single TN G g p m t k lgt0 None) lgms ts
      (split (Split k 2 1) (length lgms))) as (r & tr & Er);
      [exact E|apply split_length| |].
    + intros m t k'. destruct (single_total G g p m t k' lgt0 None L HG) as (e & l & f & tr & Es). eauto.
    + do 2 eexists. eapply mbind_eval; [exact Er|]. eapply mbind_eval; [reflexivity|]. reflexivity.
Qed.

(** ** Keys form a tree *)

Definition desc (a x : key) : Prop := exists s, path x = path a ++ s.

Lemma desc_refl a : desc a a.
Proof. exists []. now rewrite app_nil_r. Qed.

Lemma desc_trans a b x : desc a b -> desc b x -> desc a x.
Proof. intros [s Hs] [s' Hs']. exists (s ++ s'). now rewrite Hs', Hs, app_assoc. Qed.

Lemma desc_split a n i : desc a (Split a n i).
Proof. now exists [i]. Qed.

Definition below (k : key) (tr : list draw) : Prop := forall d, In d tr -> desc k (key_of d).

Lemma below_siblings k n i j tr tr' : i <> j -> below (Split k n i) tr -> below (Split k n j) tr' -> independent tr tr'.
Proof.
  intros Hij H H' d d' Hd Hd' E. apply Hij. destruct (H d Hd) as [s Hs]. destruct (H' d' Hd') as [s' Hs'].
  unfold stream in E. rewrite Hs, Hs' in E. cbn [path] in E. rewrite <- !app_assoc in E. apply app_inv_head in E.
  now injection E.
Qed.

Lemma below_trans a b tr : desc a b -> below b tr -> below a tr.
Proof. intros H Hb d Hd. apply desc_trans with b; auto. Qed.

Lemma below_app k a b : below k a -> below k b -> below k (a ++ b).
Proof. intros Ha Hb d Hd. apply in_app_or in Hd as [Hd|Hd]; auto. Qed.

Lemma below_concat k trs : (forall tr, In tr trs -> below k tr) -> below k (concat trs).
Proof. intros H d Hd. apply in_concat in Hd as (tr & Ht & Hd). now apply (H tr). Qed.

Section Keys.
  Context {A : Type} {N : Num A}.
  Variables (F : A -> A -> A -> A -> A -> A) (G : rng A).

  Lemma single_below g p lgm t k lgt0 otp e l f tr :
    mc_diffmah_params_single F G g p lgm t k lgt0 otp = (Ok (e, l, f), tr) -> below k tr.
  Proof.
    intros H. apply single_inv in H. destruct H as (tp & me & ml & cov & _ & _ & _ & _ & _ & _ & _ & _ & ->).
    intros d Hd. destruct otp; cbn in Hd; repeat (destruct Hd as [<-|Hd]; [apply desc_split|]); contradiction.
  Qed.

  Lemma mc_pop_keys g p tarr lgms ts k lgt0 r tr : shapely G ->
    mc_pop F G g p tarr lgms ts k lgt0 = (Ok r, tr) ->
    exists trs sel, length trs = length lgms /\ tr = concat trs ++ [sel] /\
      (forall i j a b, i <> j -> nth_error trs i = Some a -> nth_error trs j = Some b -> independent a b) /\
      (forall a, In a trs -> independent a [sel]) /\
      (forall i lgm t a, nth_error lgms i = Some lgm -> nth_error ts i = Some t -> nth_error trs i = Some a ->
        snd (mc_diffmah_params_single F G g p lgm t (Split k (length lgms + 1) i) lgt0 None) = a).
  Proof.
    destruct r as [[P dm] lm]. intros HG H. pose proof HG as [HU _].
    apply mc_pop_inv in H; [|exact HG]. cbv zeta in H.
    destruct H as (Lt & _ & _ & _ & trs & Ltr & -> & H). set (n := length lgms) in *.
    assert (Q : forall i a, nth_error trs i = Some a -> (i < n)%nat /\ below (Split k (n + 1) i) a /\
      exists lgm t, nth_error lgms i = Some lgm /\ nth_error ts i = Some t /\
        snd (mc_diffmah_params_single F G g p lgm t (Split k (n + 1) i) lgt0 None) = a).
    { intros i a Ha. assert (B : (i < n)%nat) by (rewrite <- Ltr; apply nth_error_Some; congruence). split; [exact B|].
      destruct (nth_error lgms i) as [lgm|] eqn:E1; [|apply nth_error_None in E1; unfold n in *; lia].
      destruct (nth_error ts i) as [t|] eqn:E2; [|apply nth_error_None in E2; lia].
      destruct (nth_error (uniforms G (Split k (n + 1) n) n) i) as [u|] eqn:E3;
        [|apply nth_error_None in E3; rewrite HU in E3; lia].
      destruct (H i lgm t u E1 E2 E3) as (e & l & f & tri & Htr & E & _). rewrite Ha in Htr. injection Htr as <-.
      split; [exact (single_below _ _ _ _ _ _ _ _ _ _ _ E)|]. exists lgm, t. rewrite E. auto. }
    exists trs, (Uniform (Split k (n + 1) n)). refine (conj Ltr (conj eq_refl (conj _ (conj _ _)))).
    - intros i j a b Hij Ha Hb. apply below_siblings with k (n + 1)%nat i j; [exact Hij|now apply Q..].
    - intros a Ha. apply In_nth_error in Ha as [i Ha]. destruct (Q i a Ha) as (B & Hb & _).
      apply below_siblings with k (n + 1)%nat i n; [lia|exact Hb|]. intros d [<-|[]]. apply desc_refl.
    - intros i lgm t a H1 H2 Ha. destruct (Q i a Ha) as (_ & _ & lgm' & t' & E1 & E2 & E). congruence.
  Qed.

  Lemma mc_diffmah_pop_keys g p lgms ts k lgt0 otp r tr : shapely G ->
    mc_diffmah_pop F G g p lgms ts k lgt0 otp = (Ok r, tr) ->
    exists trs sel, length trs = length lgms /\ tr = concat trs ++ [sel] /\
      (forall i j a b, i <> j -> nth_error trs i = Some a -> nth_error trs j = Some b -> independent a b) /\
      (forall a, In a trs -> independent a [sel]) /\
      (otp <> None -> forall a, In a trs -> exists k', a = [Normal (Split k' 2 0); Normal (Split k' 2 1)]).
  Proof.
    intros HG H. pose proof HG as [HU _].
    apply mc_diffmah_pop_inv in H; [|exact HG]. cbv zeta in H.
    destruct H as (Lt & Lo & _ & _ & _ & _ & _ & trs & Ltr & -> & H). set (n := length lgms) in *.
    assert (Q : forall i a, nth_error trs i = Some a -> (i < n)%nat /\ below (Split (Split k 2 1) n i) a /\
      (otp <> None -> exists k', a = [Normal (Split k' 2 0); Normal (Split k' 2 1)])).
    { intros i a Ha. assert (B : (i < n)%nat) by (rewrite <- Ltr; apply nth_error_Some; congruence). split; [exact B|].
      destruct (nth_error lgms i) as [lgm|] eqn:E1; [|apply nth_error_None in E1; unfold n in *; lia].
      destruct (nth_error ts i) as [t|] eqn:E2; [|apply nth_error_None in E2; lia].
      destruct (nth_error (uniforms G (Split k 2 0) n) i) as [u|] eqn:E3;
        [|apply nth_error_None in E3; rewrite HU in E3; lia].
      destruct (H i lgm t u E1 E2 E3) as (e & l & f & tri & Htr & E & _). rewrite Ha in Htr. injection Htr as <-.
      split; [exact (single_below _ _ _ _ _ _ _ _ _ _ _ E)|].
      intros Ho. apply single_inv in E. destruct E as (tp & me & ml & cov & _ & _ & _ & _ & _ & _ & _ & _ & E).
      destruct otp as [l'|]; [|congruence]. cbn [given_tp] in E. destruct (nth_error l' i) eqn:E4.
      - eexists. exact E.
      - apply nth_error_None in E4. lia. }
    exists trs, (Uniform (Split k 2 0)). refine (conj Ltr (conj eq_refl (conj _ (conj _ _)))).
    - intros i j a b Hij Ha Hb. apply below_siblings with (Split k 2 1) n i j; [exact Hij|now apply Q..].
    - intros a Ha. apply In_nth_error in Ha as [i Ha]. destruct (Q i a Ha) as (B & Hb & _).
      apply below_siblings with k 2%nat 1%nat 0%nat; [lia| |].
      + apply below_trans with (Split (Split k 2 1) n i); [apply desc_split|exact Hb].
      + intros d [<-|[]]. apply desc_refl.
    - intros Ho a Ha. apply In_nth_error in Ha as [i Ha]. now apply Q with i.
  Qed.

  Lemma NoDup_parts (trs : list (list draw)) (sel : draw) :
    (forall i j a b, i <> j -> nth_error trs i = Some a -> nth_error trs j = Some b -> independent a b) ->
    (forall a, In a trs -> independent a [sel]) ->
    (forall a, In a trs -> NoDup (map stream a)) -> NoDup (map stream (concat trs ++ [sel])).
  Proof.
    induction trs as [|a trs IH]; intros H1 H2 H3.
    - cbn. constructor; [intros []|constructor].
    - cbn [concat]. rewrite <- app_assoc, map_app.
      assert (D : forall l1 l2 : list (list nat), NoDup l1 -> NoDup l2 -> (forall x, In x l1 -> ~ In x l2) -> NoDup (l1 ++ l2)).
      { clear. induction l1 as [|x l1 IH]; intros l2 N1 N2 Hd; [exact N2|]. inversion N1; subst. cbn. constructor.
        - intros Hx. apply in_app_or in Hx as [Hx|Hx]; [contradiction|]. apply (Hd x); [now left|exact Hx].
        - apply IH; auto. intros y Hy. apply Hd. now right. }
      apply D.
      + apply H3. now left.
      + apply IH.
        * intros i j b c Hij Hb Hc. apply (H1 (S i) (S j)); [lia|exact Hb|exact Hc].
        * intros b Hb. apply H2. now right.
        * intros b Hb. apply H3. now right.
      + intros x Hx Hy. apply in_map_iff in Hx as (d & <- & Hd). apply in_map_iff in Hy as (d' & E & Hd').
        apply in_app_or in Hd' as [Hd'|Hd'].
        * apply in_concat in Hd' as (b & Hb & Hd'). apply In_nth_error in Hb as [j Hb].
          apply (H1 0%nat (S j) a b (Nat.neq_0_succ j) eq_refl Hb d d' Hd Hd'). now symmetry.
        * apply (H2 a (or_introl eq_refl) d d' Hd Hd'). now symmetry.
  Qed.

  Lemma mc_diffmah_pop_fresh g p lgms ts k lgt0 tp r tr : shapely G ->
    mc_diffmah_pop F G g p lgms ts k lgt0 (Some tp) = (Ok r, tr) -> NoDup (map stream tr).
  Proof.
    intros HG H. apply mc_diffmah_pop_keys in H; [|exact HG]. destruct H as (trs & sel & _ & -> & H1 & H2 & H3).
    apply NoDup_parts; auto. intros a Ha. destruct (H3 ltac:(discriminate) a Ha) as (k' & ->). cbn.
    constructor; [|constructor; [intros []|constructor]]. intros [E|[]]. apply app_inv_head in E. discriminate E.
  Qed.
End Keys.
