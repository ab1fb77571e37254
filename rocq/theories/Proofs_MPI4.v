(** Phases of the fitting scripts: writing, collating, footprints. *)

From Coq Require Import Reals Lra Lia List ZArith Bool Ascii String FunctionalExtensionality.
From Verif Require Import Model_Num Model_Base Model_Kernels Model_Adam Model_Fitter Model_Outline
  Model_Utils Model_Data Model_MPI Spec_Kernels Spec_Fitter Spec_Outline Spec_MPI Proofs_Fitter Proofs_Fitter2 Proofs_Outline
  Proofs_Outline2 Props_Outline Spec_Data Proofs_Data Proofs_MPI Proofs_MPI2 Proofs_MPI3.
Import ListNotations.
Local Open Scope list_scope.

(** ** Footprints by phases shared by all ranks *)

Definition phase := nat -> path -> Prop.
Definition idle : phase := fun _ _ => False.
Definition own (d : str) (name : nat -> str) : phase := fun i q => q = (d, name i).
Definition root_only : phase := fun i _ => i = 0%nat.
Definition exclusive (ph : phase) : Prop := forall i j q, i <> j -> ph i q -> ph j q -> False.

Lemma exclusive_idle : exclusive idle.
Proof. intros i j q _ []. Qed.
Lemma exclusive_root : exclusive root_only.
Proof. intros i j q N Hi Hj. unfold root_only in *. lia. Qed.
Lemma exclusive_own d name : (forall i j, name i = name j -> i = j) -> exclusive (own d name).
Proof. intros H i j q N -> E. injection E as E. now apply N, H. Qed.

Definition foot (phs : list phase) (i : nat) : list (path -> Prop) := map (fun ph => ph i) phs.

Lemma phases_race_free {A} n (s : state A) phs : Forall exclusive phs ->
  (forall i, (i < n)%nat -> within (foot phs i) (procs s i)) -> race_free n s.
Proof.
  intros HE HW. exists (foot phs). split; [exact HW|]. intros i j Hi Hj N k q H1 H2.
  assert (E : forall r, nth k (foot phs r) none q -> exists ph, nth_error phs k = Some ph /\ ph r q).
  { intros r. unfold foot. clear. revert k. induction phs as [|ph l IH]; intros [|k] H; try destruct H.
    - exists ph. now split.
    - exact (IH k H). }
  apply E in H1 as (ph & E1 & H1). apply E in H2 as (ph' & E2 & H2).
  assert (ph' = ph) by congruence. subst ph'. rewrite Forall_forall in HE.
  exact (HE ph (nth_error_In _ _ E1) i j q N H1 H2).
Qed.

Section WithinFiles.
  Context {A : Type} (F : list (path -> Prop)).

  Lemma within_write_lines {H} p (line : H -> res str) halos (k : prog A) : hd none F p -> within F k ->
    within F (write_lines p line halos k).
  Proof.
    intros Hp Hk. induction halos as [|h l IH]; [exact Hk|]. cbn [write_lines]. apply within_lift. intros s _.
    cbn [within]. auto.
  Qed.
  Lemma within_write_rank {H} p hdr (line : H -> res str) halos (k : prog A) : hd none F p -> within F k ->
    within F (write_rank_file p hdr line halos k).
  Proof. intros Hp Hk. cbn [write_rank_file within]. refine (conj Hp (conj Hp _)). now apply within_write_lines. Qed.

  Lemma within_read_all fns : forall coll (k : list sarr -> prog A), (forall q, hd none F q) -> (forall x, within F (k x)) ->
    within F (read_all fns coll k).
  Proof.
    induction fns as [|fn l IH]; intros coll k HF Hk; [apply Hk|]. cbn [read_all within]. split; [apply HF|].
    intros [o|]; [|exact I]. cbn [within]. split; [apply HF|]. intros [[s|h]|]; try exact I.
    apply within_lift. intros x _. now apply IH.
  Qed.
  Lemma within_put_all p h : forall k : prog A, hd none F p -> within F k -> within F (put_all p h k).
  Proof. induction h as [|[key c] h IH]; intros k Hp Hk; [exact Hk|]. cbn [put_all within]. auto. Qed.
  Lemma within_write_collated p a (k : prog A) : hd none F p -> within F k -> within F (write_collated p a k).
  Proof.
    intros Hp Hk. unfold write_collated. destruct a as [| |t]; try exact I.
    destruct (write_collated_data _ _ _) as [fs' [x|e]]; [|exact I]. destruct (fs' (snd p)) as [h|]; [|exact Hk].
    cbn [within]. split; [exact Hp|]. now apply within_put_all.
  Qed.
  Lemma within_collate d name out n (k : prog A) : (forall q, hd none F q) -> within F k -> within F (collate d name out n k).
  Proof.
    intros HF Hk. unfold collate. apply within_read_all; [exact HF|]. intros x. apply within_lift. intros y _.
    apply within_write_collated; [apply HF|]. apply within_lift. intros bn _. cbn [within]. split; [auto|exact Hk].
  Qed.
End WithinFiles.

(** ** Writing and collating *)

Section Fit.
  Context {A : Type} (eager : nat -> nat -> msg -> bool) (n : nat) (Hn : (0 < n)%nat).
  Context (outdir : str) (name : nat -> str) (Hinj : forall i j, name i = name j -> i = j).
  Context (hdr : str) (Hhdr : comment hdr) (w : nat) (Hw : (2 <= w)%nat).
  Context (rss : list (list (list str))) (HL : List.length rss = n)
    (HR : Forall (Forall (fun r => List.length r = w /\ Forall word r)) rss).

  Definition rank_text (i : nat) : str := hdr ++ List.concat (map row_text (nth i rss [])).

  (** The first [m] ranks have written their files. *)
  Definition written (f0 : tree) (m : nat) (g : tree) : Prop :=
    (forall i, (i < m)%nat -> g (outdir, name i) = Some (Text (rank_text i))) /\
    (forall q, (forall i, (i < m)%nat -> q <> (outdir, name i)) -> g q = f0 q).

  Lemma written_0 f0 : written f0 0 f0.
  Proof. split; [lia|reflexivity]. Qed.

  Lemma written_S f0 m g : written f0 m g -> written f0 (S m) (fset g (outdir, name m) (Some (Text (rank_text m)))).
  Proof.
    clear - Hinj. intros [H1 H2]. split.
    - intros i Hi. destruct (Nat.eq_dec i m) as [->|N]; [apply fset_same|].
      rewrite fset_other; [apply H1; lia|]. intros E. injection E as E. now apply N, Hinj.
    - intros q Hq. rewrite fset_other by (apply Hq; lia). apply H2. intros i Hi. apply Hq. lia.
  Qed.

  Lemma write_phase {H} (line : nat -> H -> res str) (halos : nat -> list H) (K : nat -> prog A) ps c f :
    (forall i, (i < n)%nat -> Forall2 (fun h r => line i h = Ok (row_text r)) (halos i) (nth i rss [])) ->
    at_ n ps (fun i => write_rank_file (outdir, name i) hdr (line i) (halos i) (K i)) ->
    exists ps' f', at_ n ps' K /\ written f n f' /\ star eager n (mkState ps c f) (mkState ps' c f').
  Proof.
    intros HLn HW. apply (each_rank eager n _ K (written f) ps c f HW (written_0 f)).
    intros m g Hm Hg. eexists. split; [|apply written_S, Hg].
    apply write_rank_local. specialize (HLn m Hm). clear - HLn.
    induction HLn as [|h r hs rs E _ IH]; cbn [map]; constructor; assumption.
  Qed.

  Lemma root_phase (p : prog A) p' (K : nat -> prog A) ps c f f' :
    at_ n ps (fun i => if Nat.eqb i 0 then p else K i) -> local p f p' f' ->
    exists ps', at_ n ps' (fun i => if Nat.eqb i 0 then p' else K i) /\ star eager n (mkState ps c f) (mkState ps' c f').
  Proof.
    intros HW HLoc. exists (pset ps 0 p'). split.
    - intros i Hi. destruct (Nat.eqb_spec i 0) as [->|N]; [apply pset_same|]. rewrite pset_other by exact N.
      rewrite (HW i Hi). destruct (Nat.eqb_spec i 0); [contradiction|reflexivity].
    - apply (local_star eager n _ _ _ _ HLoc); [exact Hn|]. now rewrite (HW 0%nat Hn).
  Qed.

  Definition collated (f : tree) (outbn : str) (h : hdf) : tree :=
    removed outdir (rm_prefix (name 0%nat)) (lit ".dat") (fset f (outdir, outbn) (Some (H5 h))).

  (** Enough rows on every rank. *)
  Lemma fit_phase {H} (line : nat -> H -> res str) (halos : nat -> list H) outbn h fs' (K : nat -> prog A) ps f :
    Forall (fun rs => (2 <= List.length rs)%nat) rss ->
    (forall i, glob (rm_prefix (name 0%nat)) (lit ".dat") (name i) = true) ->
    (forall i, (i < n)%nat -> Forall2 (fun h r => line i h = Ok (row_text r)) (halos i) (nth i rss [])) ->
    write_collated_data (fun _ => None) outbn (mkTable w (List.concat rss)) = (fs', Ok tt) -> fs' outbn = Some h ->
    at_ n ps (fun i => write_rank_file (outdir, name i) hdr (line i) (halos i)
                (Barrier (if Nat.eqb i 0 then collate outdir name outbn n (K i) else K i))) ->
    exists ps', at_ n ps' K /\ star eager n (mkState ps quiet f) (mkState ps' quiet (collated f outbn h)).
  Proof.
    intros H2 Hglob HLn HC HO HW.
    destruct (write_phase line halos (fun i => Barrier (if Nat.eqb i 0 then collate outdir name outbn n (K i) else K i))
                ps quiet f HLn HW) as (ps1 & f1 & A1 & W1 & S1).
    destruct (barrier_star eager n (fun i => if Nat.eqb i 0 then collate outdir name outbn n (K i) else K i)
                ps1 quiet f1 Hn A1) as (ps2 & A2 & S2).
    assert (HLoc : local (collate outdir name outbn n (K 0%nat)) f1 (K 0%nat) (collated f1 outbn h)).
    { apply (collate_local outdir name outbn n hdr w rss h fs'); try assumption.
      - clear - HR H2. rewrite Forall_forall in *. intros rs Hin. split; [now apply H2|now apply HR].
      - apply W1. }
    destruct (root_phase (collate outdir name outbn n (K 0%nat)) (K 0%nat) K ps2 quiet f1 (collated f1 outbn h))
      as (ps3 & A3 & S3); [|exact HLoc|].
    { intros i Hi. rewrite (A2 i Hi). destruct (Nat.eqb_spec i 0) as [->|]; reflexivity. }
    exists ps3. split.
    - intros i Hi. rewrite (A3 i Hi). destruct (Nat.eqb_spec i 0) as [->|]; reflexivity.
    - replace (collated f outbn h) with (collated f1 outbn h).
      + eapply star_trans; [exact S1|]. eapply star_trans; [exact S2|exact S3].
      + clear - W1 Hglob. apply functional_extensionality. intros [d b]. unfold collated, removed. cbn [fst snd].
        destruct (eqb_str d outdir) eqn:Ed; cbn [andb].
        * destruct (glob (rm_prefix (name 0%nat)) (lit ".dat") b) eqn:Eg; [reflexivity|].
          unfold fset. destruct (eqb_path (d, b) (outdir, outbn)); [reflexivity|]. apply W1.
          intros i Hi E. injection E as _ ->. now rewrite Hglob in Eg.
        * unfold fset. destruct (eqb_path (d, b) (outdir, outbn)); [reflexivity|]. apply W1.
          intros i Hi E. injection E as -> _. assert (eqb_str outdir outdir = true) by (now apply eqb_str_eq). congruence.
  Qed.

  (** Too few rows on some rank: rank 0 stops, nothing but the text files is written. *)
  Lemma fit_phase_spoiled {H} (line : nat -> H -> res str) (halos : nat -> list H) outbn (K : nat -> prog A) ps f :
    Exists (fun rs => (List.length rs <= 1)%nat) rss ->
    (forall i, (i < n)%nat -> Forall2 (fun h r => line i h = Ok (row_text r)) (halos i) (nth i rss [])) ->
    at_ n ps (fun i => write_rank_file (outdir, name i) hdr (line i) (halos i)
                (Barrier (if Nat.eqb i 0 then collate outdir name outbn n (K i) else K i))) ->
    exists e ps' f', (e = ValueError \/ e = IndexError) /\
      at_ n ps' (fun i => if Nat.eqb i 0 then Exit (Err e) else K i) /\
      written f n f' /\ star eager n (mkState ps quiet f) (mkState ps' quiet f').
  Proof.
    intros HE HLn HW.
    destruct (write_phase line halos (fun i => Barrier (if Nat.eqb i 0 then collate outdir name outbn n (K i) else K i))
                ps quiet f HLn HW) as (ps1 & f1 & A1 & W1 & S1).
    destruct (barrier_star eager n (fun i => if Nat.eqb i 0 then collate outdir name outbn n (K i) else K i)
                ps1 quiet f1 Hn A1) as (ps2 & A2 & S2).
    destruct (collate_spoiled outdir name outbn n hdr w rss f1 (K 0%nat)) as (e & He & HLoc); try assumption; [apply W1|].
    destruct (root_phase (collate outdir name outbn n (K 0%nat)) (Exit (Err e)) K ps2 quiet f1 f1)
      as (ps3 & A3 & S3); [|exact HLoc|].
    { intros i Hi. rewrite (A2 i Hi). destruct (Nat.eqb_spec i 0) as [->|]; reflexivity. }
    exists e, ps3, f1. refine (conj He (conj A3 (conj W1 _))).
    eapply star_trans; [exact S1|]. eapply star_trans; [exact S2|exact S3].
  Qed.
End Fit.

(** ** Rows of fits *)

Lemma counts frs : exists ns, Forall2 (fun fr m => count_below_last xlt (log_mah_target (loss_data fr)) m) frs ns.
Proof.
  exists (map (fun fr => compute_non_trivial_npts (log_mah_target (loss_data fr))) frs).
  induction frs as [|fr frs IH]; cbn [map]; constructor; [apply npts_any|exact IH].
Qed.

Lemma fits_table out frs : exists fs' h,
  write_collated_data (fun _ => None) out (mkTable 8 (map out_fields frs)) = (fs', Ok tt) /\
  fs' out = Some h /\ fit_columns frs h.
Proof.
  destruct (counts frs) as (ns & Hns).
  destruct (C33_fits_collate (fun _ => None) out frs ns Hns)
    as (fs' & l0 & l1 & l2 & l3 & l4 & l5 & E & Eo & _ & F0 & F1 & F2 & F3 & F4 & F5).
  exists fs'. eexists. split; [|split; [exact Eo|]].
  - rewrite <- E. do 2 f_equal. apply map_ext. intros fr. now rewrite split_none.
  - exists l0, l1, l2, l3, l4, l5, ns. split; [reflexivity|]. auto 10.
Qed.

Lemma fits_table_ids out (ps : list (Z * FitResult)) : exists fs' h,
  write_collated_data (fun _ => None) out (mkTable 9 (map (fun p => str_of_int (fst p) :: out_fields (snd p)) ps)) = (fs', Ok tt) /\
  fs' out = Some h /\ fit_columns_with_ids (map fst ps) (map snd ps) h.
Proof.
  destruct (counts (map snd ps)) as (ns & Hns).
  assert (Hns' : Forall2 (fun p m => count_below_last xlt (log_mah_target (loss_data (snd p))) m) ps ns)
    by (now apply (proj1 (Forall2_map_l _ _ _ _)) in Hns).
  destruct (C33_fits_with_ids_collate (fun _ => None) out ps ns Hns')
    as (fs' & l0 & l1 & l2 & l3 & l4 & l5 & E & Eo & _ & F0 & F1 & F2 & F3 & F4 & F5).
  exists fs'. eexists. split; [|split; [exact Eo|]].
  - rewrite <- E. do 2 f_equal. apply map_ext. intros p. now rewrite split_some.
  - eexists. split; [reflexivity|]. exists l0, l1, l2, l3, l4, l5, ns. rewrite map_map. split; [reflexivity|].
    refine (conj _ (conj _ (conj _ (conj _ (conj _ (conj _ Hns)))))); now apply Forall2_map_l.
Qed.

Lemma rows_ok frs : Forall (fun r => List.length r = 8%nat /\ Forall word r) (map out_fields frs).
Proof. apply Forall_map, Forall_forall. intros fr _. apply words_none. Qed.
Lemma rows_ok_ids (ps : list (Z * FitResult)) :
  Forall (fun r => List.length r = 9%nat /\ Forall word r) (map (fun p => str_of_int (fst p) :: out_fields (snd p)) ps).
Proof. apply Forall_map, Forall_forall. intros p _. apply words_some. Qed.

(** ** Parts of the halos and parts of the fits *)

Lemma Forall2_firstn {X Y} (R : X -> Y -> Prop) l l' k : Forall2 R l l' -> Forall2 R (firstn k l) (firstn k l').
Proof. intros H. revert k. induction H; intros [|k]; cbn; constructor; auto. Qed.
Lemma Forall2_skipn {X Y} (R : X -> Y -> Prop) l l' k : Forall2 R l l' -> Forall2 R (skipn k l) (skipn k l').
Proof. intros H. revert k. induction H as [|x y l l' Hx H IH]; intros [|k]; cbn; try constructor; auto. Qed.
Lemma Forall2_chop {X Y} (R : X -> Y -> Prop) sizes : forall l l', Forall2 R l l' -> Forall2 (Forall2 R) (chop sizes l) (chop sizes l').
Proof.
  induction sizes as [|s sizes IH]; intros l l' H; cbn [chop]; constructor.
  - now apply Forall2_firstn.
  - apply IH. now apply Forall2_skipn.
Qed.
Lemma Forall2_nth {X Y} (R : X -> Y -> Prop) l l' dx dy k : Forall2 R l l' -> (k < List.length l)%nat -> R (nth k l dx) (nth k l' dy).
Proof. intros H. revert k. induction H; intros [|k] Hk; cbn in *; try lia; auto. apply IHForall2. lia. Qed.
