(** Schedules do not matter for ranks that touch different files between barriers. *)

From Coq Require Import Reals Lia List ZArith Bool Ascii String FunctionalExtensionality.
From Verif Require Import Model_Num Model_Base Model_Kernels Model_Adam Model_Fitter Model_Outline
  Model_Utils Model_Data Model_MPI Spec_Kernels Spec_Fitter Spec_Outline Spec_MPI Proofs_Outline2.
Import ListNotations.
Local Open Scope list_scope.

(** ** Equality tests *)

Lemma eqb_str_eq a b : eqb_str a b = true <-> a = b.
Proof. unfold eqb_str. destruct (list_eq_dec ascii_dec a b); split; congruence. Qed.

Lemma eqb_path_eq p q : eqb_path p q = true <-> p = q.
Proof.
  destruct p as [a b], q as [c d]. unfold eqb_path. cbn [fst snd].
  rewrite andb_true_iff, !eqb_str_eq. split; [intros [-> ->]; reflexivity|]. now injection 1 as -> ->.
Qed.

Lemma eqb_path_refl p : eqb_path p p = true.
Proof. now apply eqb_path_eq. Qed.

Lemma eqb_path_neq p q : p <> q -> eqb_path p q = false.
Proof. intros H. destruct (eqb_path p q) eqn:E; [|reflexivity]. now apply eqb_path_eq in E. Qed.

Lemma fset_same f p o : fset f p o p = o.
Proof. unfold fset. now rewrite eqb_path_refl. Qed.
Lemma fset_other f p o q : q <> p -> fset f p o q = f q.
Proof. intros H. unfold fset. now rewrite eqb_path_neq. Qed.

Lemma eqb_tag_eq s t : eqb_tag s t = true <-> s = t.
Proof. destruct s, t; cbn; split; congruence. Qed.

Lemma cset_same c i j t q : cset c i j t q i j t = q.
Proof. unfold cset. rewrite !Nat.eqb_refl. destruct t; reflexivity. Qed.
Lemma cset_other c i j t q i' j' t' : (i', j', t') <> (i, j, t) -> cset c i j t q i' j' t' = c i' j' t'.
Proof.
  intros H. unfold cset.
  destruct (Nat.eqb_spec i' i) as [->|]; [|reflexivity].
  destruct (Nat.eqb_spec j' j) as [->|]; [|reflexivity].
  destruct (eqb_tag t' t) eqn:E; [|reflexivity]. apply eqb_tag_eq in E. subst. now contradict H.
Qed.
Lemma chan_eq_dec (a b : nat * nat * tag) : {a = b} + {a <> b}.
Proof. repeat decide equality. Qed.

Lemma cset_swap c i j t q i' j' t' q' : (i', j', t') <> (i, j, t) ->
  cset (cset c i j t q) i' j' t' q' = cset (cset c i' j' t' q') i j t q.
Proof.
  intros H. apply functional_extensionality. intros a. apply functional_extensionality. intros b.
  apply functional_extensionality. intros x.
  destruct (chan_eq_dec (a, b, x) (i, j, t)) as [E|E].
  - injection E as -> -> ->. rewrite cset_other by (intros HH; now apply H). now rewrite !cset_same.
  - destruct (chan_eq_dec (a, b, x) (i', j', t')) as [E'|E'].
    + injection E' as -> -> ->. rewrite cset_same, cset_other by assumption. now rewrite cset_same.
    + now rewrite !cset_other.
Qed.
Lemma cset_twice c i j t q q' : cset (cset c i j t q) i j t q' = cset c i j t q'.
Proof.
  apply functional_extensionality. intros a. apply functional_extensionality. intros b.
  apply functional_extensionality. intros x. unfold cset.
  destruct (Nat.eqb a i && Nat.eqb b j && eqb_tag x t)%bool; reflexivity.
Qed.
Lemma cset_id c i j t : cset c i j t (c i j t) = c.
Proof.
  apply functional_extensionality. intros a. apply functional_extensionality. intros b.
  apply functional_extensionality. intros x.
  destruct (chan_eq_dec (a, b, x) (i, j, t)) as [E|E].
  - injection E as -> -> ->. now rewrite cset_same.
  - now rewrite cset_other.
Qed.

Lemma pset_same {A} (ps : nat -> prog A) i p : pset ps i p i = p.
Proof. unfold pset. now rewrite Nat.eqb_refl. Qed.
Lemma pset_other {A} (ps : nat -> prog A) i p j : j <> i -> pset ps i p j = ps j.
Proof. intros H. unfold pset. destruct (Nat.eqb_spec j i); congruence. Qed.
Lemma pset_swap {A} (ps : nat -> prog A) i p j q : i <> j -> pset (pset ps i p) j q = pset (pset ps j q) i p.
Proof.
  intros H. apply functional_extensionality. intros a. unfold pset.
  destruct (Nat.eqb_spec a j), (Nat.eqb_spec a i); congruence.
Qed.

(** ** Footprints *)

(** Files the next action can read or change. *)
Definition touches {A} (p : prog A) (q : path) : Prop :=
  match p with
  | Look x _ | Open x _ | Write x _ _ | Create x _ | Put x _ _ _ | Unlink x _ => q = x
  | RmGlob d pre suf _ => (eqb_str (fst q) d && glob pre suf (snd q))%bool = true
  | _ => False
  end.

Lemma path_eq_dec (p q : path) : {p = q} + {p <> q}.
Proof. repeat decide equality. Qed.

Lemma touches_dec {A} (p : prog A) q : {touches p q} + {~ touches p q}.
Proof. destruct p; cbn; try apply path_eq_dec; try (right; tauto). apply bool_dec. Qed.

Lemma fset_local f g x o q : g x = f x \/ True -> (q = x -> fset g x o q = fset f x o q) /\ (q <> x -> fset g x o q = g q).
Proof. intros _. split; [intros ->; now rewrite !fset_same|intros H; now apply fset_other]. Qed.

Lemma disk_local {A} (p p' : prog A) f f' : disk_step p f = Some (p', f') ->
  forall g, (forall q, touches p q -> g q = f q) ->
  exists g', disk_step p g = Some (p', g') /\ (forall q, touches p q -> g' q = f' q) /\
    (forall q, ~ touches p q -> g' q = g q).
Proof.
  destruct p as [| | | | |x k|x k|x s k|x k|x key c k|d pre suf k|x k]; cbn [disk_step touches]; try discriminate;
    intros E g Hg.
  - injection E as <- <-. exists g. rewrite (Hg x eq_refl). split; [reflexivity|]. split; [exact Hg|reflexivity].
  - injection E as <- <-. eexists. split; [reflexivity|].
    split; intros q Hq; [subst q; now rewrite !fset_same|now rewrite fset_other].
  - injection E as <- <-. rewrite (Hg x eq_refl). eexists. split; [reflexivity|].
    destruct (f x) as [[s0|h]|]; (split; [intros q ->|intros q Hq]);
      rewrite ?fset_same; try reflexivity; try (now apply Hg); now apply fset_other.
  - injection E as <- <-. eexists. split; [reflexivity|].
    split; intros q Hq; [subst q; now rewrite !fset_same|now rewrite fset_other].
  - injection E as <- <-. rewrite (Hg x eq_refl). eexists. split; [reflexivity|].
    destruct (f x) as [[s0|h]|]; (split; [intros q ->|intros q Hq]);
      rewrite ?fset_same; try reflexivity; try (now apply Hg); now apply fset_other.
  - injection E as <- <-. eexists. split; [reflexivity|].
    split; intros q Hq; cbn; [now rewrite Hq|]. apply not_true_is_false in Hq. now rewrite Hq.
  - rewrite (Hg x eq_refl). destruct (f x) eqn:Ex; injection E as <- <-.
    + eexists. split; [reflexivity|]. split; intros q Hq; [subst q; now rewrite !fset_same|now rewrite fset_other].
    + eexists. split; [reflexivity|]. split; [|reflexivity]. intros q ->. now rewrite (Hg x eq_refl).
Qed.

Lemma disk_frame {A} (p p' : prog A) f f' : disk_step p f = Some (p', f') ->
  forall q, ~ touches p q -> f' q = f q.
Proof.
  intros E q Hq. destruct (disk_local p p' f f' E f (fun _ _ => eq_refl)) as (g & E' & _ & H).
  rewrite E in E'. injection E' as <-. now apply H.
Qed.

Lemma disk_commute {A} (p1 p2 p1' p2' : prog A) f f1 f2 :
  (forall q, touches p1 q -> touches p2 q -> False) ->
  disk_step p1 f = Some (p1', f1) -> disk_step p2 f = Some (p2', f2) ->
  exists g, disk_step p2 f1 = Some (p2', g) /\ disk_step p1 f2 = Some (p1', g).
Proof.
  intros HD E1 E2.
  destruct (disk_local _ _ _ _ E2 f1) as (g & G1 & G2 & G3).
  { intros q Hq. apply (disk_frame _ _ _ _ E1). intros H1. now apply (HD q). }
  destruct (disk_local _ _ _ _ E1 f2) as (g' & G1' & G2' & G3').
  { intros q Hq. apply (disk_frame _ _ _ _ E2). intros H1. now apply (HD q). }
  exists g. split; [exact G1|]. rewrite G1'. do 2 f_equal. apply functional_extensionality. intros q.
  destruct (touches_dec p1 q) as [H1|H1]; [|destruct (touches_dec p2 q) as [H2|H2]].
  - rewrite G2' by exact H1. symmetry. apply G3. intros H2. now apply (HD q).
  - rewrite G3' by exact H1. symmetry. now apply G2.
  - rewrite G3', G3 by assumption. rewrite (disk_frame _ _ _ _ E1 q H1). apply (disk_frame _ _ _ _ E2 q H2).
Qed.

Definition none : path -> Prop := fun _ => False.

(** Until its first barrier the program touches only files in the first set of
    the list, until the second barrier files in the second set, and so on. *)
Fixpoint within {A} (F : list (path -> Prop)) (p : prog A) : Prop :=
  match p with
  | Exit _ => True
  | Send _ _ _ k | Await _ _ k => within F k
  | Recv _ _ k => forall m, within F (k m)
  | Barrier k => within (tl F) k
  | Look x k => hd none F x /\ forall o, within F (k o)
  | Open x k | Write x _ k | Create x k | Put x _ _ k => hd none F x /\ within F k
  | RmGlob d pre suf k =>
      (forall q, (eqb_str (fst q) d && glob pre suf (snd q))%bool = true -> hd none F q) /\ within F k
  | Unlink x k => hd none F x /\ forall b, within F (k b)
  end.

Lemma within_touches {A} F (p : prog A) q : within F p -> touches p q -> hd none F q.
Proof. destruct p; cbn; try tauto; try (intros [H _] ->; exact H). intros [H _] Hq. now apply H. Qed.

Lemma within_comm {A} eager i F (p p' : prog A) c c' :
  comm_step eager i p c = Some (p', c') -> within F p -> within F p'.
Proof.
  destruct p as [|j t m k|j t k|j t k| | | | | | | |]; cbn [comm_step]; try discriminate; intros E H.
  - injection E as <- _. destruct (eager i j m); exact H.
  - destruct (c i j t); [|discriminate]. injection E as <- _. exact H.
  - destruct (c j i t) as [|m q]; [discriminate|]. injection E as <- _. apply H.
Qed.

Lemma within_disk {A} F (p p' : prog A) f f' :
  disk_step p f = Some (p', f') -> within F p -> within F p'.
Proof.
  destruct p as [| | | | |x k|x k|x s k|x k|x key c k|d pre suf k|x k]; cbn [disk_step within]; try discriminate;
    intros E H; try (injection E as <- _; apply H).
  destruct (f x); injection E as <- _; apply H.
Qed.

(** ** The diamond *)

Definition race_free {A} (n : nat) (s : state A) : Prop :=
  exists F : nat -> list (path -> Prop),
    (forall i, (i < n)%nat -> within (F i) (procs s i)) /\
    (forall i j, (i < n)%nat -> (j < n)%nat -> i <> j ->
       forall k q, nth k (F i) none q -> nth k (F j) none q -> False).

Lemma hd_nth (F : list (path -> Prop)) q : hd none F q -> nth 0 F none q.
Proof. destruct F; auto. Qed.
Lemma nth_tl (F : list (path -> Prop)) k : nth k (tl F) none = nth (S k) F none.
Proof. destruct F; [destruct k|]; reflexivity. Qed.

Lemma race_free_step {A} eager n (s s' : state A) : race_free n s -> step eager n s s' -> race_free n s'.
Proof.
  intros (F & HW & HD) Hs. destruct Hs as [s i p c Hi E|s i p f Hi E|s ks Hn E].
  - exists F. split; [|exact HD]. intros j Hj. cbn [procs]. destruct (Nat.eq_dec j i) as [->|N].
    + rewrite pset_same. apply (within_comm _ _ _ _ _ _ _ E). auto.
    + rewrite pset_other by exact N. auto.
  - exists F. split; [|exact HD]. intros j Hj. cbn [procs]. destruct (Nat.eq_dec j i) as [->|N].
    + rewrite pset_same. apply (within_disk _ _ _ _ _ E). auto.
    + rewrite pset_other by exact N. auto.
  - exists (fun i => tl (F i)). split.
    + intros j Hj. cbn [procs]. destruct (Nat.ltb_spec j n); [|lia].
      specialize (HW j Hj). rewrite (E j Hj) in HW. exact HW.
    + intros i j Hi Hj Hij k q. rewrite !nth_tl. now apply HD.
Qed.

Lemma comm_commute {A} eager i j (p q p' q' : prog A) c c1 c2 : i <> j ->
  comm_step eager i p c = Some (p', c1) -> comm_step eager j q c = Some (q', c2) ->
  exists c3, comm_step eager j q c1 = Some (q', c3) /\ comm_step eager i p c2 = Some (p', c3).
Proof.
  intros N E1 E2.
  destruct p as [|d t m k|d t k|d t k| | | | | | | |]; cbn [comm_step] in E1; try discriminate;
  destruct q as [|d' t' m' k'|d' t' k'|d' t' k'| | | | | | | |]; cbn [comm_step] in E2; try discriminate;
  cbn [comm_step].
  - (* Send Send *) injection E1 as <- <-. injection E2 as <- <-.
    rewrite !cset_other by congruence. eexists. split; [reflexivity|]. rewrite cset_swap by congruence. reflexivity.
  - (* Send Await *) injection E1 as <- <-. rewrite cset_other by congruence.
    destruct (c j d' t'); [|discriminate]. injection E2 as <- <-. eexists. split; reflexivity.
  - (* Send Recv *) injection E1 as <- <-. destruct (c d' j t') as [|m0 q0] eqn:Ec; [discriminate|].
    injection E2 as <- <-. destruct (chan_eq_dec (i, d, t) (d', j, t')) as [Eq|Eq].
    + injection Eq as <- -> <-. rewrite !cset_same, Ec. cbn [app]. eexists. split; [reflexivity|].
      rewrite !cset_twice. reflexivity.
    + rewrite (cset_other _ i d) by congruence. rewrite Ec. eexists. split; [reflexivity|].
      rewrite (cset_other _ d' j) by congruence. rewrite cset_swap by congruence. reflexivity.
  - (* Await Send *) destruct (c i d t) eqn:Ec; [|discriminate]. injection E1 as <- <-. injection E2 as <- <-.
    eexists. split; [reflexivity|]. rewrite cset_other by congruence. now rewrite Ec.
  - (* Await Await *) destruct (c i d t) eqn:Ec; [|discriminate]. injection E1 as <- <-.
    destruct (c j d' t') eqn:Ec'; [|discriminate]. injection E2 as <- <-. eexists. split; [reflexivity|]. now rewrite Ec.
  - (* Await Recv *) destruct (c i d t) eqn:Ec; [|discriminate]. injection E1 as <- <-.
    destruct (c d' j t') as [|m0 q0] eqn:Ec'; [discriminate|]. injection E2 as <- <-.
    eexists. split; [reflexivity|]. rewrite cset_other; [now rewrite Ec|]. intros Eq. injection Eq as <- <- <-. congruence.
  - (* Recv Send *) destruct (c d i t) as [|m0 q0] eqn:Ec; [discriminate|]. injection E1 as <- <-. injection E2 as <- <-.
    destruct (chan_eq_dec (d, i, t) (j, d', t')) as [Eq|Eq].
    + injection Eq as -> <- ->. rewrite !cset_same, Ec. cbn [app]. eexists. split; [reflexivity|].
      rewrite !cset_twice. reflexivity.
    + rewrite (cset_other _ j d') by congruence. rewrite Ec. eexists. split; [reflexivity|].
      rewrite (cset_other _ d i) by congruence. rewrite cset_swap by congruence. reflexivity.
  - (* Recv Await *) destruct (c d i t) as [|m0 q0] eqn:Ec; [discriminate|]. injection E1 as <- <-.
    destruct (c j d' t') eqn:Ec'; [|discriminate]. injection E2 as <- <-.
    rewrite cset_other by (intros Eq; injection Eq as <- <- <-; congruence). rewrite Ec'.
    eexists. split; [reflexivity|]. now rewrite Ec.
  - (* Recv Recv *) destruct (c d i t) as [|m0 q0] eqn:Ec; [discriminate|]. injection E1 as <- <-.
    destruct (c d' j t') as [|m1 q1] eqn:Ec'; [discriminate|]. injection E2 as <- <-.
    rewrite (cset_other _ d i) by congruence. rewrite Ec'. eexists. split; [reflexivity|].
    rewrite (cset_other _ d' j) by congruence. rewrite Ec. rewrite cset_swap by congruence. reflexivity.
Qed.

Lemma comm_not_barrier {A} eager i (p : prog A) c r : comm_step eager i p c = Some r -> forall k, p <> Barrier k.
Proof. intros E k ->. discriminate. Qed.
Lemma disk_not_barrier {A} (p : prog A) f r : disk_step p f = Some r -> forall k, p <> Barrier k.
Proof. intros E k ->. discriminate. Qed.
Lemma comm_disk {A} eager i (p : prog A) c f r r' : comm_step eager i p c = Some r -> disk_step p f = Some r' -> False.
Proof. destruct p; discriminate. Qed.

Lemma diamond {A} eager n (s a b : state A) : race_free n s -> step eager n s a -> step eager n s b ->
  a = b \/ exists c, step eager n a c /\ step eager n b c.
Proof.
  intros HR Ha Hb. destruct Ha as [s i p c Hi E|s i p f Hi E|s ks Hn E].
  - inversion Hb as [s0 j q d Hj E' Es Eb|s0 j q g Hj E' Es Eb|s0 ks Hn E' Es Eb]; subst.
    + destruct (Nat.eq_dec i j) as [->|N].
      * rewrite E in E'. injection E' as <- <-. now left.
      * right. destruct (comm_commute eager i j _ _ _ _ _ _ _ N E E') as (c3 & X & Y).
        exists (mkState (pset (pset (procs s) i p) j q) c3 (fs s)). split.
        -- apply step_comm with (s := mkState (pset (procs s) i p) c (fs s)); [exact Hj|]. cbn [procs chan].
           rewrite pset_other by congruence. exact X.
        -- rewrite pset_swap by exact N.
           apply step_comm with (s := mkState (pset (procs s) j q) d (fs s)); [exact Hi|]. cbn [procs chan].
           rewrite pset_other by congruence. exact Y.
    + destruct (Nat.eq_dec i j) as [->|N]; [now destruct (comm_disk _ _ _ _ _ _ _ E E')|].
      right. exists (mkState (pset (pset (procs s) i p) j q) c g). split.
      * apply step_disk with (s := mkState (pset (procs s) i p) c (fs s)); [exact Hj|]. cbn [procs fs].
        rewrite pset_other by congruence. exact E'.
      * rewrite pset_swap by exact N.
        apply step_comm with (s := mkState (pset (procs s) j q) (chan s) g); [exact Hi|]. cbn [procs chan].
        rewrite pset_other by congruence. exact E.
    + rewrite (E' i Hi) in E. discriminate.
  - inversion Hb as [s0 j q d Hj E' Es Eb|s0 j q g Hj E' Es Eb|s0 ks Hn E' Es Eb]; subst.
    + destruct (Nat.eq_dec i j) as [->|N]; [now destruct (comm_disk _ _ _ _ _ _ _ E' E)|].
      right. exists (mkState (pset (pset (procs s) i p) j q) d f). split.
      * apply step_comm with (s := mkState (pset (procs s) i p) (chan s) f); [exact Hj|]. cbn [procs chan].
        rewrite pset_other by congruence. exact E'.
      * rewrite pset_swap by exact N.
        apply step_disk with (s := mkState (pset (procs s) j q) d (fs s)); [exact Hi|]. cbn [procs fs].
        rewrite pset_other by congruence. exact E.
    + destruct (Nat.eq_dec i j) as [->|N].
      * rewrite E in E'. injection E' as <- <-. now left.
      * right. destruct HR as (F & HW & HD).
        destruct (disk_commute _ _ _ _ _ _ _
                    (fun x H1 H2 => HD i j Hi Hj N 0%nat x (hd_nth _ _ (within_touches _ _ _ (HW i Hi) H1))
                                      (hd_nth _ _ (within_touches _ _ _ (HW j Hj) H2))) E E') as (h & X & Y).
        exists (mkState (pset (pset (procs s) i p) j q) (chan s) h). split.
        -- apply step_disk with (s := mkState (pset (procs s) i p) (chan s) f); [exact Hj|]. cbn [procs fs].
           rewrite pset_other by congruence. exact X.
        -- rewrite pset_swap by exact N.
           apply step_disk with (s := mkState (pset (procs s) j q) (chan s) g); [exact Hi|]. cbn [procs fs].
           rewrite pset_other by congruence. exact Y.
    + rewrite (E' i Hi) in E. discriminate.
  - inversion Hb as [s0 j q d Hj E' Es Eb|s0 j q g Hj E' Es Eb|s0 ks' Hn' E' Es Eb]; subst.
    + rewrite (E j Hj) in E'. discriminate.
    + rewrite (E j Hj) in E'. discriminate.
    + left. f_equal. apply functional_extensionality. intros i. destruct (Nat.ltb_spec i n); [|reflexivity].
      specialize (E i H). rewrite (E' i H) in E. now injection E.
Qed.

(** ** Every run is like one run *)

Lemma one_step_less {A} eager n m : forall s t u : state A, race_free n s -> steps eager n m s t ->
  (forall t', ~ step eager n t t') -> step eager n s u -> exists m', m = S m' /\ steps eager n m' u t.
Proof.
  induction m as [|m IH]; intros s t u HR HS HT Hu; inversion HS as [s0|k s1 s2 s3 H1 H2]; subst.
  - now apply HT in Hu.
  - exists m. split; [reflexivity|]. destruct (diamond _ _ _ _ _ HR H1 Hu) as [->|(c & Hc & Hc')]; [exact H2|].
    destruct (IH s2 t c (race_free_step _ _ _ _ HR H1) H2 HT Hc) as (m' & -> & H3).
    econstructor; eassumption.
Qed.

Lemma any_run {A} eager n m : forall k (s t u : state A), race_free n s -> steps eager n m s t ->
  (forall t', ~ step eager n t t') -> steps eager n k s u -> (k <= m)%nat /\ steps eager n (m - k) u t.
Proof.
  intros k. revert m. induction k as [|k IH]; intros m s t u HR HS HT HU;
    inversion HU as [s0|k0 s1 s2 s3 H1 H2]; subst.
  - rewrite Nat.sub_0_r. split; [lia|exact HS].
  - destruct (one_step_less _ _ _ _ _ _ HR HS HT H1) as (m' & -> & H3).
    destruct (IH m' s2 t u (race_free_step _ _ _ _ HR H1) H3 HT H2) as [L H4]. split; [lia|exact H4].
Qed.

Definition star {A} eager n (s t : state A) : Prop := exists k, steps eager n k s t.

(** One run to the end decides about all runs. *)
Lemma every_run_like_one {A} eager n (s t : state A) (P : state A -> Prop) :
  race_free n s -> star eager n s t -> (forall t', ~ step eager n t t') -> P t -> every_run eager n s P.
Proof.
  intros HR (m & HS) HT HP. split.
  - exists m. intros k u HU. apply (any_run _ _ _ _ _ _ _ HR HS HT HU).
  - intros k u HU HE. destruct (any_run _ _ _ _ _ _ _ HR HS HT HU) as [_ H].
    inversion H as [s0|k0 s1 s2 s3 H1 H2]; subst; [exact HP|]. now apply HE in H1.
Qed.

(** Conversely, from every state that any run reaches, the end is still reachable. *)
Lemma reach_end {A} eager n k (s t u : state A) :
  race_free n s -> star eager n s t -> (forall t', ~ step eager n t t') -> steps eager n k s u -> star eager n u t.
Proof. intros HR (m & HS) HT HU. exists (m - k)%nat. now apply (any_run _ _ _ _ _ _ _ HR HS HT HU). Qed.

Lemma star_refl {A} eager n (s : state A) : star eager n s s.
Proof. exists 0%nat. constructor. Qed.
Lemma star_trans {A} eager n (s t u : state A) : star eager n s t -> star eager n t u -> star eager n s u.
Proof.
  intros (k & H) (m & H'). exists (k + m)%nat. induction H as [|k s1 s2 s3 X Y IH]; [exact H'|].
  cbn [Nat.add]. econstructor; [exact X|]. now apply IH.
Qed.
Lemma star_step {A} eager n (s t : state A) : step eager n s t -> star eager n s t.
Proof. intros H. exists 1%nat. econstructor; [exact H|constructor]. Qed.

(** All ranks have stopped: nothing can happen any more. *)
Lemma stopped {A} eager n (s : state A) : (forall i, (i < n)%nat -> exists r, procs s i = Exit r) ->
  forall s', ~ step eager n s s'.
Proof.
  intros H s' Hs. destruct Hs as [s i p c Hi E|s i p f Hi E|s ks Hn E].
  - destruct (H i Hi) as (r & Hr). rewrite Hr in E. discriminate.
  - destruct (H i Hi) as (r & Hr). rewrite Hr in E. discriminate.
  - destruct (H 0%nat Hn) as (r & Hr). rewrite (E 0%nat Hn) in Hr. discriminate.
Qed.
