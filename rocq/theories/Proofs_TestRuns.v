(** Lemmas on the test runs of the fitting scripts. *)

From Coq Require Import Reals Lra Lia List ZArith Bool Ascii String FunctionalExtensionality.
From Verif Require Import Model_Num Model_Base Model_Kernels Model_Adam Model_Fitter Model_Outline
  Model_Utils Model_Data Model_MPI Model_SimLoad Model_TestRuns Spec_Kernels Spec_Fitter Spec_Outline Spec_MPI Spec_SimLoad Spec_TestRuns
  Proofs_Fitter Proofs_Fitter2 Proofs_Outline Proofs_Outline2 Props_Outline Spec_Data Proofs_Data Proofs_Data2
  Proofs_MPI Proofs_MPI2 Proofs_MPI3 Proofs_MPI4 Proofs_MPI5 Proofs_MPI6 Proofs_MPI7 Proofs_MPI8 Proofs_MPI9 Proofs_SimLoad.
Import ListNotations.
Local Open Scope list_scope.

(** ** Even sections *)

Lemma chop_own {X} (secs : list (list X)) : chop (map (@List.length X) secs) (List.concat secs) = secs.
Proof.
  induction secs as [|s secs IH]; [reflexivity|]. cbn [map List.concat chop].
  rewrite firstn_app, firstn_all, Nat.sub_diag, skipn_app, skipn_all, Nat.sub_diag. cbn [firstn skipn app].
  now rewrite app_nil_r, IH.
Qed.

Lemma list_sum_repeat a k : list_sum (repeat a k) = (k * a)%nat.
Proof. induction k as [|k IH]; [reflexivity|]. cbn [repeat]. change (list_sum (a :: repeat a k)) with (a + list_sum (repeat a k))%nat. rewrite IH. lia. Qed.

(** A non-increasing list whose values differ by at most one. *)
Lemma two_values sz m : (forall x, In x sz -> (m <= x <= m + 1)%nat) ->
  (forall i j a b, (i <= j)%nat -> nth_error sz i = Some a -> nth_error sz j = Some b -> (b <= a)%nat) ->
  exists r, (r <= List.length sz)%nat /\ sz = repeat (m + 1)%nat r ++ repeat m (List.length sz - r).
Proof.
  induction sz as [|x sz IH]; intros HB HM; [exists 0%nat; now split|].
  destruct IH as (r & Hr & E).
  { intros y Hy. apply HB. now right. }
  { intros i j a b Hij. exact (HM (S i) (S j) a b ltac:(lia)). }
  destruct (Nat.eq_dec x m) as [->|N].
  - exists 0%nat. split; [cbn; lia|]. cbn [repeat app List.length Nat.sub]. f_equal.
    destruct r as [|r].
    + cbn [repeat app] in E. now rewrite Nat.sub_0_r in E.
    + exfalso. assert (X : nth_error sz 0 = Some (m + 1)%nat) by (rewrite E; reflexivity).
      specialize (HM 0%nat 1%nat m (m + 1)%nat ltac:(lia) eq_refl X). lia.
  - exists (S r). split; [cbn; lia|]. cbn [repeat app List.length Nat.sub]. f_equal; [|exact E].
    specialize (HB x (or_introl eq_refl)). lia.
Qed.

Lemma sizes_unique sz L n : (0 < n)%nat -> List.length sz = n -> list_sum sz = L ->
  (forall a b, In a sz -> In b sz -> (a <= b + 1)%nat) ->
  (forall i j a b, (i <= j)%nat -> nth_error sz i = Some a -> nth_error sz j = Some b -> (b <= a)%nat) ->
  sz = section_sizes L n.
Proof.
  intros Hn HL HS HB HM.
  pose (m := last sz 0%nat).
  assert (Em : nth_error sz (n - 1) = Some m).
  { subst n. clear -Hn. unfold m. induction sz as [|x sz IH]; [cbn in Hn; lia|]. destruct sz as [|y sz]; [reflexivity|].
    cbn [List.length] in *. replace (S (S (List.length sz)) - 1)%nat with (S (S (List.length sz) - 1)) by lia.
    cbn [nth_error]. apply IH. lia. }
  assert (Hm : In m sz) by (now apply nth_error_In in Em).
  destruct (two_values sz m) as (r & Hr & E).
  { intros x Hx. split; [|now apply HB]. apply In_nth_error in Hx as (i & Hi).
    apply (HM i (n - 1)%nat x m); [|exact Hi|exact Em]. assert (i < List.length sz)%nat by (apply nth_error_Some; congruence). lia. }
  { exact HM. }
  assert (Hrn : (r < n)%nat).
  { destruct (Nat.eq_dec r n) as [Ern|]; [|lia]. exfalso. rewrite HL, Ern, Nat.sub_diag in E. cbn [repeat] in E. rewrite app_nil_r in E.
    rewrite E in Hm. apply repeat_spec in Hm. lia. }
  assert (ES : L = (n * m + r)%nat).
  { rewrite <- HS, E, list_sum_app, !list_sum_repeat, HL. nia. }
  unfold section_sizes. replace (L / n)%nat with m by (apply (Nat.div_unique L n m r); lia).
  replace (L mod n)%nat with r by (apply (Nat.mod_unique L n m r); lia). rewrite HL in E. exact E.
Qed.

Lemma even_sections_parts {X} (l : list X) n secs : (0 < n)%nat -> even_sections l n secs -> secs = parts n l.
Proof.
  intros Hn ((HL & HC & HB) & HM). unfold parts.
  rewrite <- (sizes_unique (map (@List.length X) secs) (List.length l) n Hn).
  - rewrite <- HC. symmetry. apply chop_own.
  - now rewrite map_length.
  - rewrite <- HC. clear. induction secs as [|s secs IH]; [reflexivity|]. cbn [map List.concat]. rewrite app_length, <- IH. reflexivity.
  - intros a b Ha Hb. apply in_map_iff in Ha as (x & <- & Hx). apply in_map_iff in Hb as (y & <- & Hy). now apply HB.
  - intros i j a b Hij Ha Hb. rewrite nth_error_map in Ha, Hb.
    destruct (nth_error secs i) as [x|] eqn:Ex; [|discriminate]. destruct (nth_error secs j) as [y|] eqn:Ey; [|discriminate].
    injection Ha as <-. injection Hb as <-. now apply (HM i j).
Qed.

Lemma parts_even {X} (l : list X) n : (0 < n)%nat -> even_sections l n (parts n l).
Proof.
  intros Hn. destruct (array_split_partition l n Hn) as (p & E & B). rewrite parts_split in E by exact Hn. injection E as <-.
  split; [exact B|]. intros i j a b Hij Ha Hb.
  rewrite (array_split_nth l n _ i a Hn (parts_split n l Hn) Ha), (array_split_nth l n _ j b Hn (parts_split n l Hn) Hb).
  destruct (Nat.ltb_spec i (List.length l mod n)), (Nat.ltb_spec j (List.length l mod n)); lia.
Qed.

(** Cutting every section to [c] leaves even sections. *)
Lemma firstn_parts {X} (l : list X) n c : (0 < n)%nat ->
  parts n (List.concat (map (firstn c) (parts n l))) = map (firstn c) (parts n l).
Proof.
  intros Hn. symmetry. apply even_sections_parts; [exact Hn|].
  destruct (parts_even l n Hn) as ((HL & HC & HB) & HM). refine (conj (conj _ (conj eq_refl _)) _).
  - now rewrite map_length.
  - intros a b Ha Hb. apply in_map_iff in Ha as (x & <- & Hx). apply in_map_iff in Hb as (y & <- & Hy).
    specialize (HB x y Hx Hy). rewrite !firstn_length. lia.
  - intros i j a b Hij Ha Hb. rewrite nth_error_map in Ha, Hb.
    destruct (nth_error (parts n l) i) as [x|] eqn:Ex; [|discriminate]. destruct (nth_error (parts n l) j) as [y|] eqn:Ey; [|discriminate].
    injection Ha as <-. injection Hb as <-. specialize (HM i j x y Hij Ex Ey). rewrite !firstn_length. lia.
Qed.

(** ** Bolshoi-Planck *)

Lemma nth_error_firstn' {X} (l : list X) : forall k i, (i < k)%nat -> nth_error (firstn k l) i = nth_error l i.
Proof.
  induction l as [|x l IH]; intros k i H; destruct k as [|k]; try lia; [reflexivity|].
  destruct i as [|i]; [reflexivity|]. cbn [firstn nth_error]. apply IH. lia.
Qed.
Lemma take_firstn {X} (l : list X) k idx : (forall i, In i idx -> (i < k)%nat) -> take (firstn k l) idx = take l idx.
Proof.
  induction idx as [|i idx IH]; intros H; [reflexivity|]. cbn [take]. rewrite nth_error_firstn' by (apply H; now left).
  rewrite IH by (intros j Hj; apply H; now right). reflexivity.
Qed.

Lemma parts_seq_below n L i indx : (0 < n)%nat -> nth_error (parts n (seq 0 L)) i = Some indx -> forall x, In x indx -> (x < L)%nat.
Proof.
  intros Hn E x Hx. assert (In x (List.concat (parts n (seq 0 L)))) as H.
  { apply in_concat. exists indx. split; [now apply nth_error_In in E|exact Hx]. }
  rewrite parts_concat in H by exact Hn. apply in_seq in H. lia.
Qed.

Lemma bpl_script_full fitter outdir ids mahs times n : bpl_script fitter outdir false ids mahs times n =
  bpl_main fitter outdir ids mahs times n.
Proof. reflexivity. Qed.

Lemma bpl_script_test fitter outdir ids mahs times n : (0 < n)%nat -> (5 * n <= List.length ids)%nat ->
  bpl_script fitter outdir true ids mahs times n =
  bpl_run (bpl_target ids mahs times) fitter outdir (firstn (5 * n) ids) (firstn (5 * n) mahs) n.
Proof.
  intros Hn HL. apply functional_extensionality. intros i. unfold bpl_script, bpl_run. cbv zeta.
  rewrite firstn_length_le by exact HL. rewrite (Nat.mul_comm n 5).
  rewrite parts_split by exact Hn. cbn [lift]. unfold index at 1 3.
  destruct (nth_error (parts n (seq 0 (5 * n))) i) as [indx|] eqn:E; cbn [lift].
  - rewrite !(take_firstn _ (5 * n)) by (now apply (parts_seq_below n _ i)). unfold index. rewrite E. cbn [lift].
    rewrite !(take_firstn _ (5 * n)) by (now apply (parts_seq_below n _ i)). reflexivity.
  - unfold index. rewrite E. reflexivity.
Qed.

Lemma take_beyond {X} (l : list X) idx i : In i idx -> (List.length l <= i)%nat -> take l idx = Err IndexError.
Proof.
  intros Hin Hi. induction idx as [|j idx IH]; [contradiction|]. cbn [take]. destruct Hin as [->|Hin].
  - apply nth_error_None in Hi. now rewrite Hi.
  - destruct (nth_error l j); [|reflexivity]. now rewrite IH.
Qed.
Lemma take_cases {X} (l : list X) idx : (exists r, take l idx = Ok r) \/ take l idx = Err IndexError.
Proof.
  induction idx as [|j idx IH]; [left; now exists []|]. cbn [take]. destruct (nth_error l j) as [x|]; [|now right].
  destruct IH as [(r & ->)| ->]; [left; now exists (x :: r)|now right].
Qed.

Lemma fives n : List.concat (map (fun i => seq (5 * i) 5) (seq 0 n)) = seq 0 (5 * n).
Proof.
  induction n as [|n IH]; [reflexivity|]. rewrite seq_S, map_app, concat_app, IH. cbn [map List.concat].
  rewrite app_nil_r. replace (5 * S n)%nat with (5 * n + 5)%nat by lia. rewrite seq_app. reflexivity.
Qed.
Lemma parts_fives n : (0 < n)%nat -> parts n (seq 0 (5 * n)) = map (fun i => seq (5 * i) 5) (seq 0 n).
Proof.
  intros Hn. symmetry. apply even_sections_parts; [exact Hn|]. refine (conj (conj _ (conj (fives n) _)) _).
  - now rewrite map_length, seq_length.
  - intros a b Ha Hb. apply in_map_iff in Ha as (x & <- & _). apply in_map_iff in Hb as (y & <- & _). rewrite !seq_length. lia.
  - intros i j a b _ Ha Hb. apply nth_error_In, in_map_iff in Ha as (x & <- & _). apply nth_error_In, in_map_iff in Hb as (y & <- & _).
    rewrite !seq_length. lia.
Qed.

Section BPLShort.
  Context (eager : nat -> nat -> msg -> bool) (n : nat) (Hn : (0 < n)%nat).
  Context (fitter : list xr -> res FitResult) (outdir : str) (ids : list Z) (mahs : list (list xr)) (times : list xr).
  Let target := (outdir, lit "bpl_mpeak_histories.hdf5").
  Let main := bpl_script fitter outdir true ids mahs times n.
  Let K (i : nat) := Barrier (if Nat.eqb i 0 then collate outdir tmp_name (lit "diffmah_fits.hdf5") n (Exit (Ok tt)) else Exit (Ok tt)).

  Let rest i := lift (take ids (seq (5 * i) 5)) (fun a => lift (take mahs (seq (5 * i) 5)) (fun b =>
    write_rank_file (outdir, tmp_name i) HEADER_HALO_ID (fit_line_id fitter) (combine a b) (K i))).

  Lemma bpl_short_eq i : (i < n)%nat -> main i =
    if Nat.eqb i 0 then Create target (put_all target (bpl_target ids mahs times) (rest 0%nat)) else rest i.
  Proof.
    intros Hi. unfold main, bpl_script. cbv zeta. rewrite parts_split by exact Hn. cbn [lift].
    rewrite (Nat.mul_comm n 5), parts_fives by exact Hn. unfold index. rewrite nth_error_map.
    replace (nth_error (seq 0 n) i) with (Some i).
    - cbn [option_map lift]. unfold rest, K. destruct (Nat.eqb_spec i 0) as [->|N]; reflexivity.
    - symmetry. rewrite (nth_error_nth' _ 0%nat) by (now rewrite seq_length). now rewrite seq_nth.
  Qed.

  Lemma bpl_script_phases f : race_free n (start main f).
  Proof.
    apply (phases_race_free n _ [(fun i q => q = (outdir, tmp_name i) \/ (i = 0%nat /\ q = target)); root_only]).
    - repeat constructor; [|apply exclusive_root]. intros i j q N [->|[-> ->]] [E|[E1 E2]].
      + apply (f_equal snd) in E. cbn [snd] in E. apply tmp_name_inj in E. contradiction.
      + discriminate.
      + discriminate.
      + now subst.
    - intros i Hi. cbn [start procs]. rewrite bpl_short_eq by exact Hi.
      assert (X : forall G, hd none G (outdir, tmp_name i) -> (i = 0%nat -> forall q, hd none (tl G) q) -> within G (rest i)).
      { intros G HG1 HG2. unfold rest. apply within_lift. intros ? _. apply within_lift. intros ? _.
        apply within_write_rank; [exact HG1|]. unfold K. cbn [within]. destruct (Nat.eqb_spec i 0) as [E|N]; [|exact I].
        apply within_collate; [|exact I]. now apply HG2. }
      destruct (Nat.eqb_spec i 0) as [->|N].
      + assert (T : hd none (foot [(fun i q => q = (outdir, tmp_name i) \/ (i = 0%nat /\ q = target)); root_only] 0) target)
          by (cbn; right; now split).
        cbn [within]. split; [exact T|]. apply within_put_all; [exact T|]. apply X; [left; reflexivity|]. intros _ q. reflexivity.
      + apply X; [left; reflexivity|]. intros; contradiction.
  Qed.

  Lemma bpl_short f : List.length ids = List.length mahs -> (List.length ids < 5 * n)%nat ->
    every_run eager n (start main f) (fun s =>
      (forall i r, (i < n)%nat -> procs s i <> Exit (Ok r)) /\ procs s (n - 1)%nat = Exit (Err IndexError) /\
      (forall q, (forall i, (i < n)%nat -> q <> (outdir, tmp_name i)) ->
         fs s q = fset f target (Some (H5 (bpl_target ids mahs times))) q)).
  Proof.
    intros HI HL. set (f1 := fset f target (Some (H5 (bpl_target ids mahs times)))).
    destruct (root_phase eager n Hn (Create target (put_all target (bpl_target ids mahs times) (rest 0%nat))) (rest 0%nat) rest main quiet f f1)
      as (ps & A1 & S1).
    { intros i Hi. now apply bpl_short_eq. }
    { eapply local_S; [reflexivity|].
      pose proof (put_all_new target (bpl_target ids mahs times) (rest 0%nat) (fset f target (Some (H5 []))) (fset_same _ _ _)) as L.
      now rewrite fset_twice in L. }
    assert (A1' : at_ n ps rest).
    { intros i Hi. rewrite (A1 i Hi). destruct (Nat.eqb_spec i 0) as [->|]; reflexivity. }
    set (fate := fun i => match take ids (seq (5 * i) 5), take mahs (seq (5 * i) 5) with
      | Ok a, Ok b => match first_err (fit_line_id fitter) (combine a b) with Some e => Exit (Err e) | None => K i end
      | _, _ => Exit (Err IndexError) end).
    destruct (each_rank eager n rest fate
      (fun m g => forall q, (forall i, (i < m)%nat -> q <> (outdir, tmp_name i)) -> g q = f1 q) ps quiet f1 A1') as (ps' & f' & A2 & W2 & S2).
    { reflexivity. }
    { intros m g Hm Hg. unfold rest, fate.
      destruct (take_cases ids (seq (5 * m) 5)) as [(a & ->)| ->]; cbn [lift].
      2:{ exists g. split; [constructor|]. intros q Hq. apply Hg. intros i Hi. apply Hq. lia. }
      destruct (take_cases mahs (seq (5 * m) 5)) as [(b & ->)| ->]; cbn [lift].
      2:{ exists g. split; [constructor|]. intros q Hq. apply Hg. intros i Hi. apply Hq. lia. }
      destruct (write_rank_outcome (outdir, tmp_name m) HEADER_HALO_ID (fit_line_id fitter) (combine a b) (K m) g) as (g' & L & O).
      exists g'. split; [exact L|]. intros q Hq. rewrite O by (apply Hq; lia). apply Hg. intros i Hi. apply Hq. lia. }
    assert (FN : fate (n - 1)%nat = Exit (Err IndexError)).
    { unfold fate. rewrite (take_beyond ids _ (5 * n - 1)%nat); [reflexivity|apply in_seq; lia|lia]. }
    assert (FO : forall i, (exists e, fate i = Exit (Err e)) \/ exists k, fate i = Barrier k).
    { intros i. unfold fate. destruct (take ids (seq (5 * i) 5)) as [a|]; [|left; now eexists].
      destruct (take mahs (seq (5 * i) 5)) as [b|]; [|left; now eexists].
      destruct (first_err (fit_line_id fitter) (combine a b)); [left; now eexists|]. right. unfold K. now eexists. }
    apply (every_run_like_one _ _ _ (mkState ps' quiet f')).
    - apply bpl_script_phases.
    - eapply star_trans; [exact S1|exact S2].
    - apply jammed; cbn [procs].
      + exists (n - 1)%nat, (Err IndexError). split; [lia|]. rewrite A2 by lia. exact FN.
      + intros i Hi. rewrite (A2 i Hi). destruct (FO i) as [(e & ->)|(k & ->)]; [left|right]; now eexists.
    - cbn [procs fs]. refine (conj _ (conj _ W2)).
      + intros i r Hi. rewrite (A2 i Hi). destruct (FO i) as [(e & ->)|(k & ->)]; discriminate.
      + rewrite A2 by lia. exact FN.
  Qed.
End BPLShort.

(** ** Galacticus *)

Lemma script_test_eval fitter dt outdir outbn hdf halos nranks : galacticus_halos hdf halos ->
  galacticus_script fitter dt outdir outbn true hdf nranks =
  galacticus_run (firstn 50) fitter dt outdir outbn halos nranks.
Proof.
  intros (iso & la & F). apply functional_extensionality. intros rank. unfold galacticus_script, galacticus_run.
  rewrite (nhalos_eval _ _ _ _ _ F), map_length. cbn [lift].
  destruct (array_split (seq 0 (List.length halos)) nranks) as [splits|]; [|reflexivity]. cbn [lift].
  destruct (index splits rank) as [indx|]; [|reflexivity]. cbn [lift].
  destruct (index indx 0) as [a|]; [|reflexivity]. cbn [lift].
  destruct (index indx (List.length indx - 1)) as [b|]; [|reflexivity]. cbn [lift].
  rewrite (extract_eval _ _ _ _ _ _ _ F). cbv zeta. cbn [lift].
  rewrite !py_slice_nat, !rows_between_slice, !slice_map. set (hs := slice a (b + 1) halos).
  rewrite as_hists_map. cbn [bind]. rewrite map_length. f_equal.
  change (map (fun x => fst x) hs) with (map fst hs).
  destruct (let* ts := lasts (map fst hs) in np_max ts) as [tm|]; [|reflexivity]. cbn [lift].
  f_equal. apply functional_extensionality. intros [r|v|z|T0]; try reflexivity. do 2 f_equal.
  unfold write_rank_file. do 2 f_equal.
  replace (Nat.min (List.length hs) 50) with (List.length (firstn 50 hs)) by (rewrite firstn_length; lia).
  apply (write_lines_seq _ _ _ (firstn 50 hs)). intros i [ts ms] Hi.
  assert (Hi' : nth_error hs i = Some (ts, ms)).
  { destruct (Nat.ltb_spec i 50) as [H|H]; [now rewrite nth_error_firstn' in Hi|].
    rewrite (proj2 (nth_error_None _ _)) in Hi by (rewrite firstn_length; lia). discriminate. }
  unfold fit_line, index. cbn [Nat.add].
  rewrite (map_nth_error (fun x : list xr * list xr => Hist (fst x)) i hs Hi'),
    (map_nth_error (fun x : list xr * list xr => Hist (snd x)) i hs Hi'). reflexivity.
Qed.

Definition kept n (halos : list (list xr * list xr)) := List.concat (map (firstn 50) (parts n halos)).
Lemma kept_parts n halos i : (0 < n)%nat -> (i < n)%nat ->
  firstn 50 (nth i (parts n halos) []) = nth i (parts n (kept n halos)) [].
Proof.
  intros Hn Hi. unfold kept. rewrite firstn_parts by exact Hn. symmetry. exact (map_nth (firstn 50) (parts n halos) [] i).
Qed.
Lemma kept_length n halos : (0 < n)%nat -> (2 * n <= List.length halos)%nat -> (2 * n <= List.length (kept n halos))%nat.
Proof.
  intros Hn HL.
  assert (H2 : forall p, In p (parts n halos) -> (2 <= List.length p)%nat).
  { intros p Hp. assert (Hs : In (List.length p) (map (@List.length _) (parts n halos))) by (now apply in_map).
    rewrite parts_sizes in Hs by exact Hn. apply sizes_In in Hs.
    assert (2 <= List.length halos / n)%nat by (apply Nat.div_le_lower_bound; lia). lia. }
  unfold kept. rewrite <- (parts_length n halos Hn) at 1. revert H2. generalize (parts n halos). clear. intros l.
  induction l as [|p l IH]; intros H2; [cbn; lia|]. cbn [map List.concat List.length]. rewrite app_length, firstn_length.
  specialize (H2 p (or_introl eq_refl)) as Hp. specialize (IH (fun q Hq => H2 q (or_intror Hq))). lia.
Qed.
Lemma kept_few n halos : (0 < n)%nat -> (List.length halos <= 50 * n)%nat -> kept n halos = halos.
Proof.
  intros Hn HL. unfold kept. rewrite <- (parts_concat n halos Hn) at 2. f_equal.
  rewrite <- (map_id (parts n halos)) at 2. apply map_ext_in. intros p Hp. apply firstn_all2.
  apply In_nth_error in Hp as (i & E).
  pose proof (array_split_nth halos n _ i p Hn (parts_split n halos Hn) E) as X. rewrite X.
  pose proof (Nat.div_mod (List.length halos) n ltac:(lia)) as D.
  pose proof (Nat.mod_upper_bound (List.length halos) n ltac:(lia)) as M.
  destruct (Nat.ltb_spec i (List.length halos mod n)); nia.
Qed.

(** ** HACC *)

Lemma lastjourney_script_full fitter load outdir nchunks num istart iend n :
  lastjourney_script fitter load outdir false nchunks num istart iend n =
  lastjourney_main fitter load outdir nchunks (lastjourney_subvolumes num istart iend) n.
Proof. reflexivity. Qed.
Lemma discovery_script_full fitter load outdir avail nchunks istart iend n :
  discovery_script fitter load outdir false avail nchunks istart iend n =
  discovery_main fitter load outdir nchunks (py_slice istart (Some iend) avail) n.
Proof. reflexivity. Qed.

Lemma zrange_head num : (0 < num)%Z -> exists l, zrange 0 num = 0%Z :: l.
Proof.
  intros H. unfold zrange. replace (Z.to_nat (num - 0)) with (S (Z.to_nat (num - 1))) by lia. eexists. reflexivity.
Qed.

Lemma lastjourney_test eager n fitter load outdir nchunks num istart iend frs f : (0 < n)%nat -> (0 < num)%Z ->
  (forall c, (0 <= c < 3)%Z -> good n fitter load frs 0%Z c) ->
  every_run eager n (start (lastjourney_script fitter load outdir true nchunks num istart iend n) f) (fun st =>
    all_return n st (fun _ => tt) /\ no_messages st /\
    chunks_done (List.length (str_of_int nchunks)) outdir (fun s c => s = 0%Z /\ (0 <= c < 3)%Z) frs f (fs st)).
Proof.
  intros Hn HN HG. set (w := List.length (str_of_int nchunks)).
  replace (lastjourney_script fitter load outdir true nchunks num istart iend n)
    with (fun i => run_items n fitter load outdir w i (items_of [0; 1; 2]%Z [0%Z]) (Exit (Ok tt))).
  2:{ apply functional_extensionality. intros i. rewrite <- subvol_jobs_items. unfold lastjourney_script, hacc_jobs.
      destruct (zrange_head num HN) as (l & ->). reflexivity. }
  assert (HI : forall s c, In (Some (s, c)) (items_of [0; 1; 2]%Z [0%Z]) <-> s = 0%Z /\ (0 <= c < 3)%Z).
  { intros s c. rewrite items_jobs. cbn [In]. split.
    - intros [[E|[]] Hc]. split; [now symmetry|lia].
    - intros [-> Hc]. split; [now left|lia]. }
  assert (HP : nonneg (items_of [0; 1; 2]%Z [0%Z])).
  { intros s c Hin. apply HI in Hin. lia. }
  destruct (items_finished eager n Hn fitter load outdir w frs _ f HP) as [B R].
  { intros s c Hin. apply HI in Hin as [-> H2]. now apply HG. }
  split; [exact B|]. intros k s' S N. destruct (R k s' S N) as (R1 & R2 & R3).
  refine (conj R1 (conj R2 _)). rewrite R3. now apply (jobs_done eager n load outdir nchunks).
Qed.

Lemma at_once eager n (main : nat -> prog unit) r f : (forall i, main i = Exit r) ->
  every_run eager n (start main f) (fun st => (forall i, (i < n)%nat -> procs st i = Exit r) /\ fs st = f).
Proof.
  intros HE. apply (every_run_like_one _ _ _ (start main f)).
  - apply (phases_race_free n _ []); [constructor|]. intros i Hi. cbn [start procs]. rewrite HE. exact I.
  - apply star_refl.
  - apply stopped. intros i Hi. exists r. apply HE.
  - split; [intros i _; apply HE|reflexivity].
Qed.
