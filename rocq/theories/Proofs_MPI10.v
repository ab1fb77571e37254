(** Invariants of all reachable states: each rank keeps to its files in each phase
    between barriers, and each file operation preserves what has to be preserved. *)

From Coq Require Import Reals Lia List ZArith Bool Ascii String FunctionalExtensionality.
From Verif Require Import Model_Num Model_Base Model_Kernels Model_Adam Model_Fitter Model_Outline
  Model_Utils Model_Data Model_MPI Spec_Kernels Spec_Fitter Spec_Outline Spec_MPI Proofs_Outline2
  Proofs_Data Proofs_MPI Proofs_MPI2 Proofs_MPI3 Proofs_MPI4 Proofs_MPI5.
Import ListNotations.
Local Open Scope list_scope.

Section Logic.
  Context {A X : Type} (n : nat) (own : nat -> nat -> path -> Prop) (R : nat -> nat -> tree -> Prop)
    (C : X -> nat -> tree -> Prop).

  Definition same_on (k i : nat) (f g : tree) : Prop := forall q, own k i q -> g q = f q.

  Inductive sat (i : nat) : nat -> prog A -> tree -> Prop :=
  | sat_exit : forall k r f, sat i k (Exit r) f
  | sat_send : forall k j t m p f, sat i k p f -> sat i k (Send j t m p) f
  | sat_await : forall k j t p f, sat i k p f -> sat i k (Await j t p) f
  | sat_recv : forall k j t p f, (forall m, sat i k (p m) f) -> sat i k (Recv j t p) f
  | sat_barrier : forall k p f, R k i f -> (forall g, (forall j, (j < n)%nat -> R k j g) -> sat i (S k) p g) ->
      sat i k (Barrier p) f
  | sat_disk : forall k p f p' f', (forall q, touches p q -> own k i q) -> disk_step p f = Some (p', f') ->
      (forall g g' x, same_on k i f g -> disk_step p g = Some (p', g') -> C x k g -> C x k g') ->
      sat i k p' f' -> sat i k p f.

  Context (Hexcl : forall k i j q, i <> j -> own k i q -> own k j q -> False).
  Context (Hlocal : forall k i f g, same_on k i f g -> R k i f -> R k i g).
  Context (Hnext : forall k x f, C x k f -> C x (S k) f).

  Lemma sat_stable i k p f : sat i k p f -> forall g, same_on k i f g -> sat i k p g.
  Proof.
    induction 1 as [k r f|k j t m p f _ IH|k j t p f _ IH|k j t p f _ IH|k p f HR HS _|k p f p' f' HT HD HC _ IH];
      intros g Hg.
    - apply sat_exit.
    - apply sat_send. now apply IH.
    - apply sat_await. now apply IH.
    - apply sat_recv. intros m. now apply IH.
    - apply sat_barrier; [|exact HS]. exact (Hlocal _ _ _ _ Hg HR).
    - destruct (disk_local p p' f f' HD g) as (g' & HD' & H1 & H2).
      { intros q Hq. apply Hg. now apply HT. }
      apply (sat_disk i k p g p' g' HT HD').
      + intros h h' x Hh. apply HC. intros q Hq. now rewrite Hh, Hg.
      + apply IH. intros q Hq. destruct (touches_dec p q) as [T|T]; [now apply H1|].
        rewrite H2 by exact T. rewrite (Hg q Hq). symmetry. exact (disk_frame _ _ _ _ HD q T).
  Qed.

  Definition all_sat (k : nat) (s : state A) : Prop := forall i, (i < n)%nat -> sat i k (procs s i) (fs s).

  Lemma sat_comm eager i k p p' c c' f : comm_step eager i p c = Some (p', c') -> sat i k p f -> sat i k p' f.
  Proof.
    intros E S. destruct p; cbn in E; try discriminate.
    - injection E as <- _. inversion S; subst; [|discriminate]. destruct (eager i dst m); [assumption|now constructor].
    - destruct (c i dst t); [|discriminate]. injection E as <- _. inversion S; subst; [assumption|discriminate].
    - destruct (c src i t); [discriminate|]. injection E as <- _. inversion S; subst; [auto|discriminate].
  Qed.

  Lemma sat_disk_inv i k p f p' f' : sat i k p f -> disk_step p f = Some (p', f') ->
    (forall q, touches p q -> own k i q) /\
    (forall g g' x, same_on k i f g -> disk_step p g = Some (p', g') -> C x k g -> C x k g') /\ sat i k p' f'.
  Proof.
    destruct 1 as [| | | | |k p f p1 f1 HT HD HC HS]; intros E; try discriminate.
    rewrite HD in E. injection E as <- <-. now split.
  Qed.

  Lemma sat_step eager k s s' : step eager n s s' -> all_sat k s -> exists k', all_sat k' s' /\
    forall x, C x k (fs s) -> C x k' (fs s').
  Proof.
    intros ST HS. destruct ST as [s i p c Hi E|s i p f Hi E|s ks Hn HB].
    - exists k. split; [|auto]. intros j Hj. cbn [procs fs]. destruct (Nat.eq_dec j i) as [->|N].
      + rewrite pset_same. exact (sat_comm _ _ _ _ _ _ _ _ E (HS i Hi)).
      + rewrite pset_other by exact N. now apply HS.
    - destruct (sat_disk_inv _ _ _ _ _ _ (HS i Hi) E) as (HT & HC & Hp). exists k. split.
      + intros j Hj. cbn [procs fs]. destruct (Nat.eq_dec j i) as [->|N]; [now rewrite pset_same|].
        rewrite pset_other by exact N. apply (sat_stable j k _ (fs s)); [now apply HS|].
        intros q Hq. apply (disk_frame _ _ _ _ E). intros T. apply (Hexcl k j i q N Hq). now apply HT.
      + intros x Cx. cbn [fs]. apply (HC (fs s) f x); [now intros q _|exact E|exact Cx].
    - exists (S k). assert (HR : forall j, (j < n)%nat -> R k j (fs s)).
      { intros j Hj. specialize (HS j Hj). rewrite (HB j Hj) in HS. inversion HS; subst; [assumption|discriminate]. }
      split; [|intros x; apply Hnext]. intros i Hi. cbn [procs fs]. destruct (Nat.ltb_spec i n); [|lia].
      specialize (HS i Hi). rewrite (HB i Hi) in HS. inversion HS; subst; [auto|discriminate].
  Qed.

  Lemma sat_steps eager m : forall k s s', steps eager n m s s' -> all_sat k s -> exists k', all_sat k' s' /\
    forall x, C x k (fs s) -> C x k' (fs s').
  Proof.
    intros k s s' ST. revert k. induction ST as [s|m s1 s2 s3 S1 _ IH]; intros k HS; [now exists k|].
    destruct (sat_step eager k s1 s2 S1 HS) as (k2 & H2 & C2). destruct (IH k2 H2) as (k3 & H3 & C3).
    exists k3. split; [exact H3|]. auto.
  Qed.

  Lemma sat_lift {B} i k (r : res B) p f : (forall b, r = Ok b -> sat i k (p b) f) -> sat i k (lift r p) f.
  Proof. destruct r; intros H; [now apply H|constructor]. Qed.
  Lemma sat_look i k q p f : own k i q -> sat i k (p (f q)) f -> sat i k (Look q p) f.
  Proof.
    intros Ho S. eapply sat_disk; [|reflexivity| |exact S].
    - intros q' ->. exact Ho.
    - intros g g' x _ E. cbn in E. congruence.
  Qed.
  Lemma sat_read_all i k (fns : list path) : (forall q, own k i q) -> forall coll texts p f,
    Forall2 (fun fn s => f fn = Some (Text s)) fns texts ->
    (forall arrs, Forall2 (fun s a => genfromtxt s = Ok a) texts arrs -> sat i k (p (coll ++ arrs)) f) ->
    sat i k (read_all fns coll p) f.
  Proof.
    intros Ho. induction fns as [|fn fns IH]; intros coll texts p f HF HK; inversion HF as [|fn0 s l0 texts' E HF']; subst.
    - cbn [read_all]. rewrite <- (app_nil_r coll). apply HK. constructor.
    - cbn [read_all]. apply sat_look; [apply Ho|]. rewrite E. apply sat_look; [apply Ho|]. rewrite E.
      apply sat_lift. intros a Ea. apply (IH (coll ++ [a]) texts'); [exact HF'|]. intros arrs HA. rewrite <- app_assoc. apply HK. now constructor.
  Qed.
  Lemma sat_sends i k m l : forall p f, sat i k p f -> sat i k (sends m l p) f.
  Proof. induction l as [|j l IH]; intros p f S; cbn [sends]; [exact S|]. constructor. now apply IH. Qed.
  Lemma sat_recvs i k op l : forall acc p f, (forall m, sat i k (p m) f) -> sat i k (recvs op acc l p) f.
  Proof. induction l as [|j l IH]; intros acc p f S; cbn [recvs]; [apply S|]. constructor. intros m. now apply IH. Qed.
  Lemma sat_bcast i k rank size m p f : (forall m, sat i k (p m) f) -> sat i k (bcast rank size m p) f.
  Proof. intros S. unfold bcast. destruct (Nat.eqb rank 0); [now apply sat_sends|]. now constructor. Qed.
  Lemma sat_reduce i k op rank size m p f : (forall o, sat i k (p o) f) -> sat i k (reduce op rank size m p) f.
  Proof. intros S. unfold reduce. destruct (Nat.eqb rank 0); [now apply sat_recvs|]. now constructor. Qed.
  Lemma sat_allreduce i k op rank size m p f : (forall m, sat i k (p m) f) -> sat i k (allreduce op rank size m p) f.
  Proof. intros S. apply sat_reduce. intros o. now apply sat_bcast. Qed.
  Lemma sat_scatter i k a rank size root p f : (forall l, sat i k (p l) f) -> sat i k (scatter_nd a rank size root p) f.
  Proof.
    intros S. unfold scatter_nd. destruct (Nat.eqb rank root).
    - apply sat_lift. intros splits _. generalize 0%nat as j, (@nil (list xr)) as ans. induction splits as [|x l IH]; intros j ans; cbn [scatter_loop]; [apply S|].
      destruct (Nat.eqb j root); [apply IH|]. constructor. apply IH.
    - constructor. intros [l|v|z|x]; try constructor. apply S.
  Qed.
  Lemma sat_load i k load rank size p f : (forall t l, sat i k (p t l) f) -> sat i k (load_mahs_per_rank load rank size p) f.
  Proof.
    intros S. unfold load_mahs_per_rank.
    assert (G : forall t m, sat i k (scatter_nd m rank size 0 (fun mahs_for_rank =>
      bcast rank size (MVec t) (fun m => match m with MVec t => p t mahs_for_rank | _ => Exit (Err TypeError) end))) f).
    { intros t m. apply sat_scatter. intros l. apply sat_bcast. intros [l'|v|z|x]; try constructor. apply S. }
    destruct (Nat.eqb rank 0); [|apply G]. apply sat_lift. intros [t m] _. apply G.
  Qed.
End Logic.

(** ** Runs made of jobs: each rank writes a text file, then rank 0 collates them *)

Inductive kind (J : Type) : Type := Idle | Writing (j : J) | Collating (j : J).
Arguments Idle {J}.
Arguments Writing {J} _.
Arguments Collating {J} _.

Section Jobs.
  Context {J X : Type} (n : nat) (Hn : (0 < n)%nat).
  Context (dir : str) (name : J -> nat -> str) (out : J -> str) (extra : path -> Prop).
  Context (hdr : str) (Hhdr : comment hdr) (w : nat) (Hw : (2 <= w)%nat) (row : X -> list str) (tab : list X -> hdf -> Prop).
  Context (Hrow : forall x, List.length (row x) = w /\ Forall word (row x)).
  Context (Htab : forall bn xs, exists fs' h, write_collated_data (fun _ => None) bn (mkTable w (map row xs)) = (fs', Ok tt) /\
    fs' bn = Some h /\ tab xs h).
  Context (sch : list (kind J)).

  Notation tmp := (fun j i => (dir, name j i)).
  Definition rows_text (xs : list X) : str := hdr ++ List.concat (map (fun x => row_text (row x)) xs).
  (** The rows begun in text [x] are all in the table. *)
  Definition saved (o : option file) (x : str) : Prop :=
    exists before xs after h y, o = Some (H5 h) /\ tab (before ++ xs ++ after) h /\ x ++ y = rows_text xs.

  Definition own_of (k i : nat) (q : path) : Prop :=
    match nth k sch Idle with
    | Collating _ => i = 0%nat
    | _ => (exists j, q = tmp j i) \/ (i = 0%nat /\ extra q)
    end.
  Definition fresh (f : tree) (q : path) : Prop := forall x, f q <> Some (Text x).
  Definition later (k : nat) (j : J) : Prop := exists k', (k <= k')%nat /\ nth_error sch k' = Some (Writing j).
  Definition reached (k : nat) (j : J) : Prop := exists k', (k' <= k)%nat /\ nth_error sch k' = Some (Collating j).
  Definition R_of (k i : nat) (f : tree) : Prop :=
    match nth k sch Idle with
    | Idle => forall j, later (S k) j -> fresh f (tmp j i)
    | Writing j => (exists xs, f (tmp j i) = Some (Text (rows_text xs))) /\ forall j', later (S k) j' -> fresh f (tmp j' i)
    | Collating _ => i = 0%nat -> forall j' i', (i' < n)%nat -> later (S k) j' -> fresh f (tmp j' i')
    end.
  (** Files that are of no concern to the run. *)
  Definition alien (q : path) : Prop :=
    ~ extra q /\ (forall k j, nth_error sch k = Some (Writing j) -> forall i, (i < n)%nat -> q <> tmp j i) /\
    (forall k j, nth_error sch k = Some (Collating j) -> q <> (dir, out j) /\
       (eqb_str (fst q) dir && glob (rm_prefix (name j 0%nat)) (lit ".dat") (snd q))%bool = false).
  Definition C_of (x : J * nat * str + path * option file) (k : nat) (f : tree) : Prop :=
    match x with
    | inl (j, i, s) =>
        (i < n)%nat -> (exists y, f (tmp j i) = Some (Text (s ++ y))) \/
          (reached k j /\ f (tmp j i) = None /\ saved (f (dir, out j)) s)
    | inr (q, o) => alien q -> f q = o
    end.

  Context (Hname : forall j j' i i', name j i = name j' i' -> j = j' /\ i = i').
  Context (Hout : forall j j', out j = out j' -> j = j').
  Context (Hot : forall j j' i, out j <> name j' i).
  Context (Hextra : forall j i, ~ extra (dir, name j i)) (Hextra' : forall j, ~ extra (dir, out j)).
  Context (Hrm : forall j i, glob (rm_prefix (name j 0%nat)) (lit ".dat") (name j i) = true).
  Context (Hrm' : forall j j' i, j <> j' -> glob (rm_prefix (name j 0%nat)) (lit ".dat") (name j' i) = false).
  Context (Hrmo : forall j j', glob (rm_prefix (name j 0%nat)) (lit ".dat") (out j') = false).
  Context (Horder : forall k k' j, nth_error sch k = Some (Writing j) -> nth_error sch k' = Some (Collating j) -> (k < k')%nat).
  Context (Honce : forall k k' j, nth_error sch k = Some (Writing j) -> nth_error sch k' = Some (Writing j) -> k = k').
  Context (Jdec : forall j j' : J, {j = j'} + {j <> j'}).

  Notation sat := (sat (A := unit) n own_of R_of C_of).

  Lemma own_excl k i j q : i <> j -> own_of k i q -> own_of k j q -> False.
  Proof.
    intros N. unfold own_of. destruct (nth k sch Idle); [| |congruence].
    all: intros [(a & Ea)|[Ea Xa]] [(b & Eb)|[Eb Xb]]; subst;
      [injection Eb as E; apply Hname in E; destruct E; congruence|now apply (Hextra a i)|now apply (Hextra b j)|congruence].
  Qed.
  Lemma R_local k i f g : same_on own_of k i f g -> R_of k i f -> R_of k i g.
  Proof.
    unfold same_on, R_of, own_of. destruct (nth k sch Idle) as [|j|j]; intros HS.
    - intros H j' L x. rewrite HS by (left; now exists j'). now apply H.
    - intros [(xs & E) H]. split.
      + exists xs. rewrite HS; [exact E|]. left. now exists j.
      + intros j' L x. rewrite HS by (left; now exists j'). now apply H.
    - intros H E j' i' Hi' L x. rewrite HS by exact E. now apply H.
  Qed.
  Lemma C_next k x f : C_of x k f -> C_of x (S k) f.
  Proof.
    destruct x as [[[j i] s]|[q o]]; [|now cbn]. cbn. intros H Hi. destruct (H Hi) as [P|(P & Q)]; [now left|right]. split; [|exact Q].
    destruct P as (k' & L & E). exists k'. split; [now apply le_S|exact E].
  Qed.

  (** What is known on entering a phase. *)
  Definition entry (k i : nat) (f : tree) : Prop := forall j, later k j -> fresh f (tmp j i).
  Lemma later_weaken k j : later (S k) j -> later k j.
  Proof. intros (k' & L & E). exists k'. split; [lia|exact E]. Qed.
  Lemma entry_next k i g : (i < n)%nat -> (forall j, (j < n)%nat -> R_of k j g) -> entry (S k) i g.
  Proof.
    intros Hi H j L. unfold R_of in H. destruct (nth k sch Idle).
    - now apply (H i Hi).
    - now apply (H i Hi).
    - now apply (H 0%nat Hn eq_refl).
  Qed.

  Lemma sat_idle i k p f : (i < n)%nat -> nth k sch Idle = Idle -> entry (S k) i f ->
    (forall g, entry (S k) i g -> sat i (S k) p g) -> sat i k (Barrier p) f.
  Proof.
    intros Hi Hk He HS. constructor.
    - unfold R_of. rewrite Hk. exact He.
    - intros g HR. apply HS. now apply entry_next.
  Qed.

  (** *** Writing *)
  Section Writing.
    Context (k i : nat) (j : J) (Hi : (i < n)%nat) (Hk : nth_error sch k = Some (Writing j)).

    Lemma nthk : nth k sch Idle = Writing j.
    Proof. now apply nth_error_nth. Qed.
    Lemma not_reached : ~ reached k j.
    Proof. intros (k' & L & E). pose proof (Horder _ _ _ Hk E). lia. Qed.
    Lemma own_tmp j' : own_of k i (tmp j' i).
    Proof. unfold own_of. rewrite nthk. left. now exists j'. Qed.

    (** Changing the rank's own file, keeping its text. *)
    Lemma keep_own g o x : (forall s, g (tmp j i) = Some (Text s) -> exists y, o = Some (Text (s ++ y))) ->
      C_of x k g -> C_of x k (fset g (tmp j i) o).
    Proof.
      destruct x as [[[j' i'] s]|[q o']].
      2:{ intros _ Hc Ha. rewrite fset_other; [exact (Hc Ha)|]. destruct Ha as (_ & Ha & _). exact (Ha k j Hk i Hi). }
      intros Ho Hc Hi'. destruct (Hc Hi') as [(y & E)|(P & E & Sv)].
      - left. destruct (path_eq_dec (tmp j' i') (tmp j i)) as [Eq|N].
        + rewrite Eq in *. destruct (Ho _ E) as (z & ->). exists (y ++ z). rewrite fset_same. now rewrite app_assoc.
        + exists y. now rewrite fset_other.
      - right. split; [exact P|]. rewrite !fset_other; [now split|..].
        + intros Eq. apply (f_equal snd) in Eq. cbn in Eq. now apply Hot in Eq.
        + intros Eq. apply (f_equal snd) in Eq. cbn in Eq. apply Hname in Eq. destruct Eq as [-> ->]. now apply not_reached.
    Qed.

    Lemma sat_write_lines {H} (line : H -> res str) (hs : list H) p : forall xs f,
      (forall h s, In h hs -> line h = Ok s -> exists x, s = row_text (row x)) ->
      f (tmp j i) = Some (Text (rows_text xs)) -> entry (S k) i f ->
      (forall f xs, f (tmp j i) = Some (Text (rows_text xs)) -> entry (S k) i f -> sat i k p f) ->
      sat i k (write_lines (tmp j i) line hs p) f.
    Proof.
      induction hs as [|h hs IH]; intros xs f Hl Ef He HK; cbn [write_lines]; [now apply (HK f xs)|].
      apply sat_lift. intros s Es. destruct (Hl h s (or_introl eq_refl) Es) as (x & ->).
      eapply sat_disk.
      - intros q ->. apply own_tmp.
      - cbn [disk_step]. rewrite Ef. reflexivity.
      - intros g g' y Hg E Hc. cbn [disk_step] in E. rewrite (Hg _ (own_tmp j)) in E. rewrite Ef in E.
        apply (f_equal (option_map snd)) in E. cbn in E. injection E as <-. apply keep_own; [|exact Hc].
        intros s Eg. rewrite (Hg _ (own_tmp j)), Ef in Eg. injection Eg as <-. eauto.
      - apply (IH (xs ++ [x])).
        + intros h' s' Hin. apply Hl. now right.
        + rewrite fset_same. unfold rows_text. rewrite map_app, concat_app. cbn [map List.concat]. now rewrite app_nil_r, !app_assoc.
        + intros j' L y. rewrite fset_other; [now apply He|]. intros Eq. apply (f_equal snd) in Eq. cbn in Eq. apply Hname in Eq. destruct Eq as [-> _].
          destruct L as (k' & L & E). pose proof (Honce _ _ _ Hk E). lia.
        + exact HK.
    Qed.

    Lemma sat_write_rank {H} (line : H -> res str) (hs : list H) p f :
      (forall h s, In h hs -> line h = Ok s -> exists x, s = row_text (row x)) -> entry k i f ->
      (forall f xs, f (tmp j i) = Some (Text (rows_text xs)) -> entry (S k) i f -> sat i k p f) ->
      sat i k (write_rank_file (tmp j i) hdr line hs p) f.
    Proof.
      intros Hl He HK. unfold write_rank_file.
      assert (Hf : fresh f (tmp j i)) by (apply He; exists k; now split).
      assert (He' : forall o j', later (S k) j' -> fresh (fset f (tmp j i) o) (tmp j' i)).
      { intros o j' L y. rewrite fset_other; [apply He; now apply later_weaken|]. intros Eq. apply (f_equal snd) in Eq. cbn in Eq. apply Hname in Eq. destruct Eq as [-> _].
        destruct L as (k' & L & E). pose proof (Honce _ _ _ Hk E). lia. }
      eapply sat_disk; [intros q ->; apply own_tmp|reflexivity| |].
      - intros g g' y Hg E Hc. cbn [disk_step] in E. injection E as <-. apply keep_own; [|exact Hc].
        intros s Eg. rewrite (Hg _ (own_tmp j)) in Eg. now apply Hf in Eg.
      - eapply sat_disk; [intros q ->; apply own_tmp|cbn [disk_step]; rewrite fset_same; reflexivity| |].
        + intros g g' y Hg E Hc. cbn [disk_step] in E. rewrite (Hg _ (own_tmp j)), fset_same in E. apply (f_equal (option_map snd)) in E. cbn in E. injection E as <-. apply keep_own; [|exact Hc].
          intros s Eg. rewrite (Hg _ (own_tmp j)), fset_same in Eg. injection Eg as <-. now exists hdr.
        + rewrite fset_twice. cbn [app]. apply (sat_write_lines line hs p []); [exact Hl| | |exact HK].
          * rewrite fset_same. unfold rows_text. cbn. now rewrite app_nil_r.
          * intros j' L. now apply He'.
    Qed.
  End Writing.

  (** *** Collating *)
  Section Collating.
    Context (k : nat) (j : J) (Hk : nth_error sch k = Some (Collating j)).
    Lemma own_all q : own_of k 0 q.
    Proof. unfold own_of. rewrite (nth_error_nth _ _ _ Hk). reflexivity. Qed.
    Lemma same_all f g : same_on own_of k 0 f g -> g = f.
    Proof. intros H. apply functional_extensionality. intros q. apply H, own_all. Qed.

    (** The text files of the job are there. *)
    Definition complete (xss : list (list X)) (f : tree) : Prop :=
      forall i, (i < n)%nat -> f (tmp j i) = Some (Text (rows_text (nth i xss []))).

    Lemma keep_table xss g o x : complete xss g -> C_of x k g -> C_of x k (fset g (dir, out j) o).
    Proof.
      destruct x as [[[j' i] s]|[q o']].
      2:{ intros _ Cx Ha. rewrite fset_other; [exact (Cx Ha)|]. destruct Ha as (_ & _ & Ha). exact (proj1 (Ha k j Hk)). }
      intros Hc Cx Hi. assert (T : fset g (dir, out j) o (tmp j' i) = g (tmp j' i)).
      { apply fset_other. intros Eq. apply (f_equal snd) in Eq. cbn in Eq. symmetry in Eq. now apply Hot in Eq. }
      destruct (Cx Hi) as [(y & E)|(P & E & Sv)]; [left; exists y; congruence|right]. split; [exact P|]. split; [congruence|].
      rewrite fset_other; [exact Sv|]. intros Eq. apply (f_equal snd) in Eq. cbn in Eq. apply Hout in Eq. subst j'.
      rewrite (Hc i Hi) in E. discriminate.
    Qed.
    Lemma complete_out xss g o : complete xss g -> complete xss (fset g (dir, out j) o).
    Proof.
      intros H i Hi. rewrite fset_other; [now apply H|]. intros Eq. apply (f_equal snd) in Eq. cbn in Eq. symmetry in Eq. now apply Hot in Eq.
    Qed.

    Lemma sat_put_all p xss (h : hdf) : forall h0 f, complete xss f -> f (dir, out j) = Some (H5 h0) ->
      sat 0 k p (fset f (dir, out j) (Some (H5 (h0 ++ h)))) -> sat 0 k (put_all (dir, out j) h p) f.
    Proof.
      induction h as [|[key c] h IH]; intros h0 f Hc Ef Sp; cbn [put_all].
      - rewrite app_nil_r in Sp. replace f with (fset f (dir, out j) (Some (H5 h0))); [exact Sp|].
        apply functional_extensionality. intros q. destruct (path_eq_dec q (dir, out j)) as [->|N]; [now rewrite fset_same|now rewrite fset_other].
      - eapply sat_disk; [intros q ->; apply own_all|cbn [disk_step]; rewrite Ef; reflexivity| |].
        + intros g g' y Hg E Cy. apply same_all in Hg. subst g. cbn [disk_step] in E. rewrite Ef in E. apply (f_equal (option_map snd)) in E. cbn in E. injection E as <-.
          now apply (keep_table xss).
        + apply (IH (h0 ++ [(key, c)])); [now apply complete_out|apply fset_same|]. rewrite fset_twice, <- app_assoc. exact Sp.
    Qed.

    Lemma fns_texts xss f : List.length xss = n -> complete xss f ->
      Forall2 (fun fn s => f fn = Some (Text s)) (map (fun bn => (dir, bn)) (map (name j) (seq 0 n))) (map rows_text xss).
    Proof.
      intros L Hc. rewrite map_map. unfold complete in Hc. rewrite <- L in *. clear L.
      assert (G : forall m (l : list (list X)), (forall i, (i < List.length l)%nat -> f (tmp j (m + i)%nat) = Some (Text (rows_text (nth i l [])))) ->
        Forall2 (fun fn s => f fn = Some (Text s)) (map (fun x => (dir, name j x)) (seq m (List.length l))) (map rows_text l)).
      { intros m l. revert m. induction l as [|xs l IH]; intros m H; cbn [List.length seq map]; constructor.
        - specialize (H 0%nat ltac:(cbn; lia)). rewrite Nat.add_0_r in H. exact H.
        - apply IH. intros i Hi. specialize (H (S i) ltac:(cbn; lia)). now rewrite Nat.add_succ_r in H. }
      now apply (G 0%nat).
    Qed.

    Lemma read_text xs a : genfromtxt (rows_text xs) = Ok a -> a = as_array w (map row xs).
    Proof.
      unfold rows_text. rewrite <- map_map. rewrite (genfromtxt_rows w); [congruence|exact Hw|exact Hhdr|].
      apply Forall_map, Forall_forall. intros x _. apply Hrow.
    Qed.

    Lemma after_rm xss h f x : List.length xss = n -> complete xss f -> f (dir, out j) = Some (H5 h) -> tab (List.concat xss) h ->
      C_of x k f -> C_of x k (removed dir (rm_prefix (name j 0%nat)) (lit ".dat") f).
    Proof.
      destruct x as [[[j' i] s]|[q o']].
      2:{ intros _ _ _ _ Cx Ha. unfold removed. rewrite (proj2 (proj2 (proj2 Ha) k j Hk)). exact (Cx Ha). }
      intros L Hc Eh Ht Cx Hi. specialize (Cx Hi). unfold removed. cbn [fst snd].
      assert (D : eqb_str dir dir = true) by (now apply eqb_str_eq). rewrite D. cbn [andb]. rewrite Hrmo.
      destruct (Jdec j j') as [<-|N].
      - rewrite Hrm. destruct Cx as [(y & E)|(P & E & Sv)]; right.
        + split; [exists k; now split|]. split; [reflexivity|].
          rewrite (Hc i Hi) in E. injection E as E.
          destruct (nth_split xss [] (eq_ind_r (fun m => (i < m)%nat) Hi L)) as (l1 & l2 & Ex & _).
          exists (List.concat l1), (nth i xss []), (List.concat l2), h, y. split; [exact Eh|]. split; [|now symmetry].
          rewrite Ex in Ht. rewrite concat_app in Ht. exact Ht.
        + rewrite (Hc i Hi) in E. discriminate.
      - rewrite Hrm' by exact N. exact Cx.
    Qed.

    Lemma sat_collate p f xss : List.length xss = n -> complete xss f -> (forall j' i, (i < n)%nat -> later (S k) j' -> fresh f (tmp j' i)) ->
      (forall g, (forall j' i, (i < n)%nat -> later (S k) j' -> fresh g (tmp j' i)) -> sat 0 k p g) ->
      sat 0 k (collate dir (name j) (out j) n p) f.
    Proof.
      intros L Hc Hf HK. unfold collate.
      apply (sat_read_all n own_of R_of C_of 0 k _ own_all [] (map rows_text xss)); [now apply fns_texts|].
      intros arrs HA. assert (EA : arrs = map (as_array w) (map (map row) xss)).
      { clear - HA Hrow Hw Hhdr. revert arrs HA. induction xss as [|xs xss IH]; intros arrs HA; cbn [map] in HA; inversion HA as [|a b c d Ea HA']; subst; [reflexivity|].
        cbn [map]. f_equal; [now apply read_text|now apply IH]. }
      subst arrs. cbn [app]. apply sat_lift. intros a Ea.
      destruct (Forall_Exists_dec (fun rs : list (list str) => (2 <= List.length rs)%nat) (fun rs => le_dec 2 (List.length rs)) (map (map row) xss)) as [F|F].
      - rewrite concat_2d in Ea; [|exact F|intros E; apply map_eq_nil in E; subst; cbn in L; lia]. injection Ea as <-.
        unfold write_collated. cbn [snd]. rewrite <- concat_map. destruct (Htab (out j) (List.concat xss)) as (fs' & h & Ew & Eo & Ht).
        rewrite Ew, Eo.
        eapply sat_disk; [intros q ->; apply own_all|reflexivity| |].
        + intros g g' y Hg E Cy. cbn [disk_step] in E. injection E as <-. apply same_all in Hg. subst g. now apply (keep_table xss).
        + apply (sat_put_all _ xss h []); [now apply complete_out|apply fset_same|]. rewrite fset_twice. cbn [app].
          destruct n as [|n'] eqn:En; [lia|]. cbn [seq map index nth_error lift]. rewrite <- En in *.
          assert (Hc' := complete_out xss f (Some (H5 h)) Hc).
          eapply sat_disk; [intros q _; apply own_all|reflexivity| |].
          * intros g g' y Hg E Cy. cbn [disk_step] in E. injection E as <-. apply same_all in Hg. subst g.
            apply (after_rm xss h); [exact L|exact Hc'|apply fset_same|exact Ht|exact Cy].
          * apply HK. intros j' i Hi' Lt x. cbv beta.
            destruct (eqb_str (fst (dir, name j' i)) dir && glob _ _ _)%bool; [discriminate|].
            rewrite fset_other; [now apply Hf|]. intros Eq. apply (f_equal snd) in Eq. cbn in Eq. symmetry in Eq. now apply Hot in Eq.
      - destruct (concat_spoiled w (map (map row) xss)) as [E|(l & E)].
        + eapply Exists_impl; [|exact F]. intros rs Hrs. cbn in Hrs. lia.
        + rewrite E in Ea. discriminate.
        + rewrite E in Ea. injection Ea as <-. constructor.
    Qed.
  End Collating.

  (** A job: writing, barrier, collating. *)
  Lemma sat_job i k j {H} (line : H -> res str) (hs : list H) (p : prog unit) f : (i < n)%nat ->
    nth_error sch k = Some (Writing j) -> nth_error sch (S k) = Some (Collating j) -> entry k i f ->
    (forall h s, In h hs -> line h = Ok s -> exists x, s = row_text (row x)) ->
    (forall g, (i = 0%nat -> forall j' i', (i' < n)%nat -> later (S (S k)) j' -> fresh g (tmp j' i')) -> sat i (S k) p g) ->
    sat i k (write_rank_file (tmp j i) hdr line hs (Barrier (if Nat.eqb i 0 then collate dir (name j) (out j) n p else p))) f.
  Proof.
    intros Hi Hk Hk' He Hl HK. apply (sat_write_rank k i j Hi Hk); [exact Hl|exact He|].
    intros f' xs Ef He'. constructor.
    - unfold R_of. rewrite (nth_error_nth _ _ _ Hk). split; [now exists xs|exact He'].
    - intros g HR. destruct (Nat.eqb_spec i 0) as [->|N].
      + assert (HX : exists xss, List.length xss = n /\ complete j xss g).
        { unfold R_of in HR. rewrite (nth_error_nth _ _ _ Hk) in HR. clear - HR. unfold complete.
          revert HR. generalize n as m. induction m as [|m IH]; intros HR; [exists []; split; [reflexivity|lia]|].
          destruct IH as (xss & L & Hx); [intros i Hi; apply HR; lia|]. destruct (HR m ltac:(lia)) as [(xs & E) _].
          exists (xss ++ [xs]). split; [rewrite app_length; cbn; lia|]. intros i Hi. destruct (Nat.eq_dec i m) as [->|N].
          - rewrite app_nth2 by lia. rewrite L, Nat.sub_diag. exact E.
          - rewrite app_nth1 by lia. apply Hx. lia. }
        destruct HX as (xss & L & Hx).
        assert (Hall : forall j' i', (i' < n)%nat -> later (S (S k)) j' -> fresh g (tmp j' i')).
        { intros j' i' Hi' Lt. unfold R_of in HR. rewrite (nth_error_nth _ _ _ Hk) in HR. apply (HR i' Hi'). now apply later_weaken. }
        apply (sat_collate (S k) j Hk' p g xss L Hx Hall). intros g' Hg'. now apply HK.
      + apply HK. intros E. now contradict N.
  Qed.

  (** Rank 0 may write other files first. *)
  Lemma keep_extra q k g o x : extra q -> C_of x k g -> C_of x k (fset g q o).
  Proof.
    intros Hq. destruct x as [[[j i] s]|[q' o']].
    - intros Cx Hi. destruct (Cx Hi) as [(y & E)|(P & E & Sv)]; [left; exists y|right].
      + rewrite fset_other; [exact E|]. intros <-. now apply Hextra in Hq.
      + split; [exact P|]. rewrite !fset_other; [now split|intros <-; now apply Hextra' in Hq|intros <-; now apply Hextra in Hq].
    - intros Cx Ha. rewrite fset_other; [exact (Cx Ha)|]. intros ->. now destruct Ha.
  Qed.
  Lemma sat_put_extra q k j (h : hdf) p : extra q -> nth_error sch k = Some (Writing j) -> forall h0 f,
    f q = Some (H5 h0) -> entry k 0 f -> (forall f, entry k 0 f -> sat 0 k p f) -> sat 0 k (put_all q h p) f.
  Proof.
    intros Hq Hk. assert (Ho : own_of k 0 q) by (unfold own_of; rewrite (nth_error_nth _ _ _ Hk); now right).
    induction h as [|[key c] h IH]; intros h0 f Ef He HK; cbn [put_all]; [now apply HK|].
    eapply sat_disk; [intros q' ->; exact Ho|cbn [disk_step]; rewrite Ef; reflexivity| |].
    - intros g g' x Hg E Cx. cbn [disk_step] in E. rewrite (Hg _ Ho), Ef in E. apply (f_equal (option_map snd)) in E. cbn in E. injection E as <-. now apply keep_extra.
    - apply (IH (h0 ++ [(key, c)])); [apply fset_same| |exact HK]. intros j' L x. rewrite fset_other; [now apply He|]. intros <-. now apply Hextra in Hq.
  Qed.
  Lemma sat_create_extra q k j (h : hdf) p f : extra q -> nth_error sch k = Some (Writing j) -> entry k 0 f ->
    (forall f, entry k 0 f -> sat 0 k p f) -> sat 0 k (Create q (put_all q h p)) f.
  Proof.
    intros Hq Hk He HK. assert (Ho : own_of k 0 q) by (unfold own_of; rewrite (nth_error_nth _ _ _ Hk); now right).
    eapply sat_disk; [intros q' ->; exact Ho|reflexivity| |].
    - intros g g' x Hg E Cx. cbn [disk_step] in E. injection E as <-. now apply keep_extra.
    - apply (sat_put_extra q k j h p Hq Hk []); [apply fset_same| |exact HK]. intros j' L x. rewrite fset_other; [now apply He|]. intros <-. now apply Hextra in Hq.
  Qed.

  (** What holds of every run. *)
  Lemma jobs_kept eager (main : nat -> prog unit) f m s m' s' j i x : (forall i, (i < n)%nat -> sat i 0 (main i) f) ->
    steps eager n m (start main f) s -> steps eager n m' s s' -> (i < n)%nat -> fs s (tmp j i) = Some (Text x) ->
    not_lost (fs s' (tmp j i)) (fs s' (dir, out j)) hdr (fun y => row_text (row y)) tab x.
  Proof.
    intros H0 S1 S2 Hi E.
    destruct (sat_steps n own_of R_of C_of own_excl R_local C_next eager m 0 _ _ S1 H0) as (k & Hs & _).
    destruct (sat_steps n own_of R_of C_of own_excl R_local C_next eager m' k _ _ S2 Hs) as (k' & _ & Hc).
    destruct (Hc (inl (j, i, x))) as [P|(_ & _ & bf & xs & af & h & y & E1 & E2 & E3)]; [|exact Hi|now left|right].
    - intros _. left. exists []. now rewrite app_nil_r.
    - exists bf, xs, af, h, y. now split.
  Qed.
  Lemma jobs_alien eager (main : nat -> prog unit) f m s q : (forall i, (i < n)%nat -> sat i 0 (main i) f) ->
    steps eager n m (start main f) s -> alien q -> fs s q = f q.
  Proof.
    intros H0 S1 Ha.
    destruct (sat_steps n own_of R_of C_of own_excl R_local C_next eager m 0 _ _ S1 H0) as (k & _ & Hc).
    exact (Hc (inr (q, f q)) (fun _ => eq_refl) Ha).
  Qed.
End Jobs.
