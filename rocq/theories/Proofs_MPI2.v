(** Building one run: file operations rank by rank, barriers, collectives. *)

From Coq Require Import Reals Lia List ZArith Bool Ascii String FunctionalExtensionality.
From Verif Require Import Model_Num Model_Base Model_Kernels Model_Adam Model_Fitter Model_Outline
  Model_Utils Model_Data Model_MPI Spec_Kernels Spec_Fitter Spec_Outline Spec_MPI Proofs_Outline2
  Proofs_Data Proofs_MPI.
Import ListNotations.
Local Open Scope list_scope.

Definition quiet : chans := fun _ _ _ => [].

Section Runs.
  Context {A : Type} (eager : nat -> nat -> msg -> bool) (n : nat).
  Implicit Types (ps : nat -> prog A) (c : chans) (f : tree).

  (** The first [n] ranks are about to do [W]. *)
  Definition at_ ps (W : nat -> prog A) : Prop := forall i, (i < n)%nat -> ps i = W i.

  (** File operations of one rank. *)
  Inductive local : prog A -> tree -> prog A -> tree -> Prop :=
  | local_0 : forall p f, local p f p f
  | local_S : forall p f p1 f1 p2 f2, disk_step p f = Some (p1, f1) -> local p1 f1 p2 f2 -> local p f p2 f2.

  Lemma local_trans p f p1 f1 p2 f2 : local p f p1 f1 -> local p1 f1 p2 f2 -> local p f p2 f2.
  Proof. induction 1; intros H'; [exact H'|]. econstructor; eauto. Qed.

  Lemma pset_id ps i p : ps i = p -> pset ps i p = ps.
  Proof. intros <-. apply functional_extensionality. intros j. unfold pset. destruct (Nat.eqb_spec j i); congruence. Qed.
  Lemma pset_twice ps i p q : pset (pset ps i p) i q = pset ps i q.
  Proof. apply functional_extensionality. intros j. unfold pset. destruct (Nat.eqb j i); reflexivity. Qed.

  Lemma local_star p f p' f' : local p f p' f' -> forall ps i c, (i < n)%nat -> ps i = p ->
    star eager n (mkState ps c f) (mkState (pset ps i p') c f').
  Proof.
    induction 1 as [p f|p f p1 f1 p2 f2 E _ IH]; intros ps i c Hi Hp.
    - rewrite pset_id by exact Hp. apply star_refl.
    - eapply star_trans.
      + apply star_step. apply (step_disk eager n (mkState ps c f) i p1 f1 Hi). cbn [procs fs]. rewrite Hp. exact E.
      + cbn [procs chan]. rewrite <- (pset_twice ps i p1 p2). apply IH; [exact Hi|apply pset_same].
  Qed.

  (** Every rank in turn does its file operations. *)
  Lemma each_rank (W K : nat -> prog A) (P : nat -> tree -> Prop) ps c f :
    at_ ps W -> P 0%nat f ->
    (forall m g, (m < n)%nat -> P m g -> exists g', local (W m) g (K m) g' /\ P (S m) g') ->
    exists ps' f', at_ ps' K /\ P n f' /\ star eager n (mkState ps c f) (mkState ps' c f').
  Proof.
    intros HW H0 HS.
    assert (HM : forall m, (m <= n)%nat -> exists ps' f', (forall i, (i < m)%nat -> ps' i = K i) /\
      (forall i, (m <= i < n)%nat -> ps' i = W i) /\ P m f' /\ star eager n (mkState ps c f) (mkState ps' c f')).
    { induction m as [|m IH]; intros Hm.
      - exists ps, f. refine (conj _ (conj _ (conj H0 (star_refl _ _ _)))); [lia|]. intros i Hi. apply HW. lia.
      - destruct IH as (ps' & f' & H1 & H2 & H3 & H4); [lia|].
        destruct (HS m f' ltac:(lia) H3) as (g & L & H5).
        exists (pset ps' m (K m)), g. refine (conj _ (conj _ (conj H5 _))).
        + intros i Hi. destruct (Nat.eq_dec i m) as [->|N]; [apply pset_same|].
          rewrite pset_other by exact N. apply H1. lia.
        + intros i Hi. rewrite pset_other by lia. apply H2. lia.
        + eapply star_trans; [exact H4|]. apply (local_star _ _ _ _ L); [lia|]. apply H2. lia. }
    destruct (HM n (le_n n)) as (ps' & f' & H1 & _ & H3 & H4). exists ps', f'. auto.
  Qed.

  Lemma barrier_star (K : nat -> prog A) ps c f : (0 < n)%nat -> at_ ps (fun i => Barrier (K i)) ->
    exists ps', at_ ps' K /\ star eager n (mkState ps c f) (mkState ps' c f).
  Proof.
    intros Hn HB. exists (fun i => if Nat.ltb i n then K i else ps i). split.
    - intros i Hi. destruct (Nat.ltb_spec i n); [reflexivity|lia].
    - apply star_step. exact (step_barrier eager n (mkState ps c f) K Hn HB).
  Qed.

  (** A message is sent and received. *)
  Lemma exchange i j t m k k' ps f : (i < n)%nat -> (j < n)%nat -> i <> j ->
    ps i = Send j t m k -> ps j = Recv i t k' ->
    star eager n (mkState ps quiet f) (mkState (pset (pset ps i k) j (k' m)) quiet f).
  Proof.
    intros Hi Hj N Ei Ej.
    set (c1 := cset quiet i j t [m]).
    assert (E0 : cset c1 i j t [] = quiet).
    { unfold c1. rewrite cset_twice. exact (cset_id quiet i j t). }
    eapply star_trans.
    { apply star_step. apply (step_comm eager n (mkState ps quiet f) i (if eager i j m then k else Await j t k) c1 Hi).
      cbn [procs chan]. rewrite Ei. reflexivity. }
    cbn [procs fs]. set (p1 := if eager i j m then k else Await j t k).
    eapply star_trans.
    { apply star_step. apply (step_comm eager n (mkState (pset ps i p1) c1 f) j (k' m) quiet Hj).
      cbn [procs chan]. rewrite pset_other by congruence. rewrite Ej. cbn [comm_step].
      unfold c1 at 1. rewrite cset_same. now rewrite E0. }
    cbn [procs fs]. unfold p1. destruct (eager i j m); [apply star_refl|].
    replace (pset (pset ps i k) j (k' m)) with (pset (pset (pset ps i (Await j t k)) j (k' m)) i k).
    2:{ rewrite (pset_swap _ i _ j) by exact N. rewrite pset_twice. now rewrite (pset_swap _ j) by congruence. }
    apply star_step.
    apply (step_comm eager n (mkState (pset (pset ps i (Await j t k)) j (k' m)) quiet f) i k quiet Hi).
    cbn [procs chan]. rewrite pset_other by exact N. rewrite pset_same. reflexivity.
  Qed.

  (** The root sends one message to each rank of a list. *)
  Lemma sends_star r m l : forall k (k' : nat -> msg -> prog A) ps f, (r < n)%nat -> NoDup l ->
    (forall j, In j l -> (j < n)%nat /\ j <> r) ->
    ps r = sends m l k -> (forall j, In j l -> ps j = Recv r Coll (k' j)) ->
    exists ps', ps' r = k /\ (forall j, In j l -> ps' j = k' j m) /\
      (forall j, j <> r -> ~ In j l -> ps' j = ps j) /\
      star eager n (mkState ps quiet f) (mkState ps' quiet f).
  Proof.
    induction l as [|j l IH]; intros k k' ps f Hr HND Hl Er Hj.
    - exists ps. refine (conj Er (conj _ (conj _ (star_refl _ _ _)))); [intros j []|auto].
    - inversion HND as [|j0 l0 Hnin HND']; subst. destruct (Hl j (or_introl eq_refl)) as [Lj Nj].
      destruct (IH k k' (pset (pset ps r (sends m l k)) j (k' j m)) f) as (ps' & P1 & P2 & P3 & P4);
        try assumption.
      + intros x Hx. apply Hl. now right.
      + rewrite pset_other by congruence. apply pset_same.
      + intros x Hx. rewrite pset_other by congruence.
        rewrite pset_other by (apply Hl; now right). apply Hj. now right.
      + exists ps'. refine (conj P1 (conj _ (conj _ _))).
        * intros x [<-|Hx]; [|now apply P2]. rewrite P3 by assumption. apply pset_same.
        * intros x Nx Hx. rewrite P3; [|exact Nx|intros H; apply Hx; now right].
          rewrite pset_other by (intros ->; apply Hx; now left). now rewrite pset_other.
        * eapply star_trans; [|exact P4].
          apply (exchange r j Coll m (sends m l k) (k' j)); try assumption; [congruence|].
          apply Hj. now left.
  Qed.

  (** The root receives one message from each rank of a list. *)
  Lemma recvs_star r op l : forall acc k (v : nat -> msg) (k' : nat -> prog A) ps f, (r < n)%nat -> NoDup l ->
    (forall j, In j l -> (j < n)%nat /\ j <> r) ->
    ps r = recvs op acc l k -> (forall j, In j l -> ps j = Send r Coll (v j) (k' j)) ->
    exists ps', ps' r = k (fold_left op (map v l) acc) /\ (forall j, In j l -> ps' j = k' j) /\
      (forall j, j <> r -> ~ In j l -> ps' j = ps j) /\
      star eager n (mkState ps quiet f) (mkState ps' quiet f).
  Proof.
    induction l as [|j l IH]; intros acc k v k' ps f Hr HND Hl Er Hj.
    - exists ps. refine (conj Er (conj _ (conj _ (star_refl _ _ _)))); [intros j []|auto].
    - inversion HND as [|j0 l0 Hnin HND']; subst. destruct (Hl j (or_introl eq_refl)) as [Lj Nj].
      destruct (IH (op acc (v j)) k v k' (pset (pset ps j (k' j)) r (recvs op (op acc (v j)) l k)) f)
        as (ps' & P1 & P2 & P3 & P4); try assumption.
      + intros x Hx. apply Hl. now right.
      + apply pset_same.
      + intros x Hx. rewrite pset_other by (apply Hl; now right).
        rewrite pset_other by congruence. apply Hj. now right.
      + exists ps'. refine (conj P1 (conj _ (conj _ _))).
        * intros x [<-|Hx]; [|now apply P2]. rewrite P3 by assumption. rewrite pset_other by assumption.
          apply pset_same.
        * intros x Nx Hx. rewrite P3; [|exact Nx|intros H; apply Hx; now right].
          rewrite pset_other by exact Nx. rewrite pset_other by (intros ->; apply Hx; now left). reflexivity.
        * eapply star_trans; [|exact P4].
          apply (exchange j r Coll (v j) (k' j) (fun m => recvs op (op acc m) l k)); try assumption.
          apply Hj. now left.
  Qed.

  Lemma others_spec j : In j (seq 1 (n - 1)) <-> (1 <= j < n)%nat.
  Proof. rewrite in_seq. lia. Qed.

  Lemma bcast_star (m : nat -> msg) (K : nat -> msg -> prog A) ps f : (0 < n)%nat ->
    at_ ps (fun i => bcast i n (m i) (K i)) ->
    exists ps', at_ ps' (fun i => K i (m 0%nat)) /\ star eager n (mkState ps quiet f) (mkState ps' quiet f).
  Proof.
    intros Hn HW.
    destruct (sends_star 0 (m 0%nat) (seq 1 (n - 1)) (K 0%nat (m 0%nat)) K ps f Hn (seq_NoDup _ _))
      as (ps' & P1 & P2 & _ & P4).
    - intros j Hj. apply others_spec in Hj. lia.
    - exact (HW 0%nat Hn).
    - intros j Hj. apply others_spec in Hj. rewrite HW by lia. unfold bcast. destruct j; [lia|reflexivity].
    - exists ps'. split; [|exact P4]. intros i Hi. destruct i as [|i]; [exact P1|]. apply P2, others_spec. lia.
  Qed.

  Lemma reduce_star op (v : nat -> msg) (K : nat -> option msg -> prog A) ps f : (0 < n)%nat ->
    at_ ps (fun i => reduce op i n (v i) (K i)) ->
    exists ps', at_ ps' (fun i => K i (if Nat.eqb i 0
                                       then Some (fold_left op (map v (seq 1 (n - 1))) (v 0%nat)) else None)) /\
      star eager n (mkState ps quiet f) (mkState ps' quiet f).
  Proof.
    intros Hn HW.
    destruct (recvs_star 0 op (seq 1 (n - 1)) (v 0%nat) (fun r => K 0%nat (Some r)) v (fun i => K i None) ps f Hn
                (seq_NoDup _ _)) as (ps' & P1 & P2 & _ & P4).
    - intros j Hj. apply others_spec in Hj. lia.
    - exact (HW 0%nat Hn).
    - intros j Hj. apply others_spec in Hj. rewrite HW by lia. unfold reduce. destruct j; [lia|reflexivity].
    - exists ps'. split; [|exact P4]. intros i Hi. destruct i as [|i]; [exact P1|]. apply P2, others_spec. lia.
  Qed.

  Lemma allreduce_star op (v : nat -> msg) (K : nat -> msg -> prog A) ps f : (0 < n)%nat ->
    at_ ps (fun i => allreduce op i n (v i) (K i)) ->
    exists ps', at_ ps' (fun i => K i (fold_left op (map v (seq 1 (n - 1))) (v 0%nat))) /\
      star eager n (mkState ps quiet f) (mkState ps' quiet f).
  Proof.
    intros Hn HW.
    destruct (reduce_star op v (fun i o => bcast i n (match o with Some r => r | None => v i end) (K i)) ps f Hn HW)
      as (ps1 & H1 & S1).
    destruct (bcast_star (fun i => match (if Nat.eqb i 0
                  then Some (fold_left op (map v (seq 1 (n - 1))) (v 0%nat)) else None) with Some r => r | None => v i end)
                K ps1 f Hn H1) as (ps2 & H2 & S2).
    exists ps2. split; [exact H2|]. now apply (star_trans _ _ _ _ _ S1).
  Qed.

  (** ** Scattering rows *)

  Lemma scatter_loop_star root splits : forall i ans k (k' : nat -> msg -> prog A) ps f, (root < n)%nat ->
    (i + List.length splits <= n)%nat ->
    ps root = scatter_loop root i splits ans k ->
    (forall j, (i <= j < i + List.length splits)%nat -> j <> root -> ps j = Recv root P2P (k' j)) ->
    exists ps',
      ps' root = k (if (Nat.leb i root && Nat.ltb root (i + List.length splits))%bool
                    then nth (root - i) splits [] else ans) /\
      (forall j, (i <= j < i + List.length splits)%nat -> j <> root -> ps' j = k' j (MRows (nth (j - i) splits []))) /\
      (forall j, j <> root -> ~ (i <= j < i + List.length splits)%nat -> ps' j = ps j) /\
      star eager n (mkState ps quiet f) (mkState ps' quiet f).
  Proof.
    induction splits as [|x l IH]; intros i ans k k' ps f Hr HL Er Hj; cbn [List.length] in *.
    - exists ps. refine (conj _ (conj _ (conj _ (star_refl _ _ _)))); [|lia|auto].
      rewrite Er. cbn [scatter_loop]. destruct (Nat.leb_spec i root), (Nat.ltb_spec root (i + 0)); try reflexivity; lia.
    - cbn [scatter_loop] in Er. destruct (Nat.eqb_spec i root) as [->|N].
      + destruct (IH (S root) x k k' ps f Hr ltac:(lia) Er) as (ps' & P1 & P2 & P3 & P4).
        { intros j Hj1 Nj. apply Hj; lia. }
        exists ps'. refine (conj _ (conj _ (conj _ P4))).
        * rewrite P1. destruct (Nat.leb_spec (S root) root); [lia|]. cbn [andb].
          destruct (Nat.leb_spec root root); [|lia]. destruct (Nat.ltb_spec root (root + S (List.length l))); [|lia].
          cbn [andb]. now rewrite Nat.sub_diag.
        * intros j Hj1 Nj. rewrite P2 by lia. replace (j - root)%nat with (S (j - S root)) by lia. reflexivity.
        * intros j Nj Hj1. apply P3; lia.
      + destruct (IH (S i) ans k k' (pset (pset ps root (scatter_loop root (S i) l ans k)) i (k' i (MRows x))) f Hr)
          as (ps' & P1 & P2 & P3 & P4); [lia| | |].
        * rewrite pset_other by congruence. apply pset_same.
        * intros j Hj1 Nj. rewrite pset_other by lia. rewrite pset_other by exact Nj. apply Hj; lia.
        * exists ps'. refine (conj _ (conj _ (conj _ _))).
          -- rewrite P1. destruct (Nat.leb_spec (S i) root).
             ++ destruct (Nat.leb_spec i root); [|lia]. rewrite !andb_true_l.
                replace (i + S (List.length l))%nat with (S i + List.length l)%nat by lia.
                destruct (Nat.ltb_spec root (S i + List.length l)); [|reflexivity].
                replace (root - i)%nat with (S (root - S i)) by lia. reflexivity.
             ++ destruct (Nat.leb_spec i root); [lia|]. reflexivity.
          -- intros j Hj1 Nj. destruct (Nat.eq_dec j i) as [->|Nji].
             ++ rewrite P3; [|exact Nj|lia]. rewrite pset_same, Nat.sub_diag. reflexivity.
             ++ rewrite P2 by lia. replace (j - i)%nat with (S (j - S i)) by lia. reflexivity.
          -- intros j Nj Hj1. rewrite P3; [|exact Nj|lia]. rewrite pset_other by lia. now rewrite pset_other.
          -- eapply star_trans; [|exact P4].
             apply (exchange root i P2P (MRows x) (scatter_loop root (S i) l ans k) (k' i)); try assumption; try lia.
             apply Hj; lia.
  Qed.

  Lemma array_split_length {B} (l : list B) k splits : array_split l k = Ok splits -> List.length splits = k.
  Proof.
    assert (X : forall a b : list (list B), Ok a = Ok b -> a = b) by congruence.
    unfold array_split. destruct k as [|k]; [discriminate|]. intros E. apply X in E. rewrite <- E.
    now rewrite map_length, seq_length.
  Qed.

  Lemma scatter_star (arr : nat -> list (list xr)) root splits (K : nat -> list (list xr) -> prog A) ps f :
    (root < n)%nat -> array_split (arr root) n = Ok splits ->
    at_ ps (fun i => scatter_nd (arr i) i n root (K i)) ->
    exists ps', at_ ps' (fun i => K i (nth i splits [])) /\ star eager n (mkState ps quiet f) (mkState ps' quiet f).
  Proof.
    intros Hr HS HW. pose proof (array_split_length _ _ _ HS) as HL.
    destruct (scatter_loop_star root splits 0 [] (K root)
                (fun j m => match m with MRows x => K j x | _ => Exit (Err TypeError) end) ps f Hr)
      as (ps' & P1 & P2 & _ & P4).
    - lia.
    - rewrite (HW root Hr). unfold scatter_nd. rewrite Nat.eqb_refl, HS. reflexivity.
    - intros j Hj Nj. rewrite HW by lia. unfold scatter_nd. destruct (Nat.eqb_spec j root); [contradiction|reflexivity].
    - exists ps'. split; [|exact P4]. intros i Hi. destruct (Nat.eq_dec i root) as [->|N].
      + rewrite P1. cbn [Nat.leb andb]. destruct (Nat.ltb_spec root (0 + List.length splits)); [|lia].
        now rewrite Nat.sub_0_r.
      + rewrite P2 by lia. now rewrite Nat.sub_0_r.
  Qed.

  Lemma load_star (load : nat -> res (list xr * list (list xr))) tarr mahs splits
    (K : nat -> list xr -> list (list xr) -> prog A) ps f :
    (0 < n)%nat -> load 0%nat = Ok (tarr, mahs) -> array_split mahs n = Ok splits ->
    at_ ps (fun i => load_mahs_per_rank (load i) i n (K i)) ->
    exists ps', at_ ps' (fun i => K i tarr (nth i splits [])) /\
      star eager n (mkState ps quiet f) (mkState ps' quiet f).
  Proof.
    intros Hn HL HS HW.
    set (T := fun i : nat => if Nat.eqb i 0 then tarr else []).
    set (M := fun i : nat => if Nat.eqb i 0 then mahs else []).
    destruct (scatter_star M 0 splits
      (fun i rows => bcast i n (MVec (T i)) (fun m => match m with MVec t => K i t rows | _ => Exit (Err TypeError) end))
      ps f Hn HS) as (ps1 & H1 & S1).
    { intros i Hi. rewrite (HW i Hi). unfold load_mahs_per_rank, T, M.
      destruct (Nat.eqb_spec i 0) as [->|N]; [rewrite HL; reflexivity|reflexivity]. }
    destruct (bcast_star _ _ ps1 f Hn H1) as (ps2 & H2 & S2).
    exists ps2. split; [exact H2|]. now apply (star_trans _ _ _ _ _ S1).
  Qed.
End Runs.

(** ** Footprints of the collectives *)

Section Within.
  Context {A : Type} (F : list (path -> Prop)).

  Lemma within_sends m l (k : prog A) : within F k -> within F (sends m l k).
  Proof. intros H. induction l; [exact H|]. exact IHl. Qed.
  Lemma within_bcast r s m (k : msg -> prog A) : (forall x, within F (k x)) -> within F (bcast r s m k).
  Proof. intros H. unfold bcast. destruct (Nat.eqb r 0); [apply within_sends, H|exact H]. Qed.
  Lemma within_recvs op l : forall acc (k : msg -> prog A), (forall x, within F (k x)) -> within F (recvs op acc l k).
  Proof. induction l as [|j l IH]; intros acc k H; [apply H|]. cbn. intros m. now apply IH. Qed.
  Lemma within_reduce op r s m (k : option msg -> prog A) : (forall x, within F (k x)) -> within F (reduce op r s m k).
  Proof. intros H. unfold reduce. destruct (Nat.eqb r 0); [apply within_recvs; auto|apply H]. Qed.
  Lemma within_allreduce op r s m (k : msg -> prog A) : (forall x, within F (k x)) -> within F (allreduce op r s m k).
  Proof. intros H. apply within_reduce. intros x. now apply within_bcast. Qed.
  Lemma within_lift {B} (r : res B) (k : B -> prog A) : (forall x, r = Ok x -> within F (k x)) -> within F (lift r k).
  Proof. intros H. destruct r; [now apply H|exact I]. Qed.
  Lemma within_scatter_loop root splits : forall i ans (k : list (list xr) -> prog A),
    (forall x, within F (k x)) -> within F (scatter_loop root i splits ans k).
  Proof.
    induction splits as [|x l IH]; intros i ans k H; [apply H|]. cbn [scatter_loop].
    destruct (Nat.eqb i root); [now apply IH|]. cbn [within]. now apply IH.
  Qed.
  Lemma within_scatter a r s root (k : list (list xr) -> prog A) :
    (forall x, within F (k x)) -> within F (scatter_nd a r s root k).
  Proof.
    intros H. unfold scatter_nd. destruct (Nat.eqb r root).
    - apply within_lift. intros x _. now apply within_scatter_loop.
    - cbn [within]. intros [x| | |]; cbn [within]; auto.
  Qed.
  Lemma within_load load r s (k : list xr -> list (list xr) -> prog A) :
    (forall x y, within F (k x y)) -> within F (load_mahs_per_rank load r s k).
  Proof.
    intros H. assert (G : forall t m, within F (scatter_nd m r s 0 (fun mahs_for_rank =>
      bcast r s (MVec t) (fun m => match m with MVec t => k t mahs_for_rank | _ => Exit (Err TypeError) end)))).
    { intros t m. apply within_scatter. intros x. apply within_bcast. intros [| | |]; cbn [within]; auto. }
    unfold load_mahs_per_rank. destruct (Nat.eqb r 0); [apply within_lift; intros; apply G|apply G].
  Qed.
End Within.
