(** Nothing is lost in a run of a fitting script, wherever it stops. *)

From Coq Require Import Reals Lia List ZArith Bool Ascii String FunctionalExtensionality.
From Verif Require Import Model_Num Model_Base Model_Kernels Model_Adam Model_Fitter Model_Outline
  Model_Utils Model_Data Model_MPI Spec_Kernels Spec_Fitter Spec_Outline Spec_MPI Proofs_Outline2
  Spec_Data Proofs_Data Proofs_MPI Proofs_MPI2 Proofs_MPI3 Proofs_MPI4 Proofs_MPI5 Proofs_MPI7 Proofs_MPI10.
Import ListNotations.
Local Open Scope list_scope.

Lemma not_lost_ext {X} o o' hdr (l l' : X -> str) t x : (forall y, l y = l' y) -> not_lost o o' hdr l t x -> not_lost o o' hdr l' t x.
Proof. intros H. unfold not_lost. now rewrite (map_ext l l' H) || (replace l with l' by (apply functional_extensionality; intros; now rewrite H)). Qed.

(** ** One job *)

Section One.
  Context {X : Type} (n : nat) (Hn : (0 < n)%nat) (dir out : str) (extra : path -> Prop).
  Context (hdr : str) (Hhdr : comment hdr) (w : nat) (Hw : (2 <= w)%nat) (row : X -> list str) (tab : list X -> hdf -> Prop).
  Context (Hrow : forall x, List.length (row x) = w /\ Forall word (row x)).
  Context (Htab : forall bn xs, exists fs' h, write_collated_data (fun _ => None) bn (mkTable w (map row xs)) = (fs', Ok tt) /\
    fs' bn = Some h /\ tab xs h).
  Context (Hout : ~ temp_file (lit "tmp_mah_fits_rank_") out).
  Context (Hx1 : forall i, ~ extra (dir, tmp_name i)) (Hx2 : ~ extra (dir, out)).
  Context (m : nat).

  Definition one_sch : list (kind unit) := repeat Idle m ++ [Writing tt; Collating tt].
  Notation one_name := (fun (_ : unit) i => tmp_name i).
  Notation one_out := (fun _ : unit => out).

  Lemma one_writing k : nth_error one_sch k = Some (Writing tt) -> k = m.
  Proof. clear - m.
    unfold one_sch. destruct (lt_dec k m) as [L|L].
    - rewrite nth_error_app1 by (now rewrite repeat_length). rewrite nth_error_repeat by exact L. discriminate.
    - rewrite nth_error_app2 by (rewrite repeat_length; lia). rewrite repeat_length. destruct (k - m)%nat as [|[|[|d]]] eqn:E; cbn; try discriminate. lia.
  Qed.
  Lemma one_collating k : nth_error one_sch k = Some (Collating tt) -> k = S m.
  Proof. clear - m.
    unfold one_sch. destruct (lt_dec k m) as [L|L].
    - rewrite nth_error_app1 by (now rewrite repeat_length). rewrite nth_error_repeat by exact L. discriminate.
    - rewrite nth_error_app2 by (rewrite repeat_length; lia). rewrite repeat_length. destruct (k - m)%nat as [|[|[|d]]] eqn:E; cbn; try discriminate. lia.
  Qed.
  Lemma one_at_w : nth_error one_sch m = Some (Writing tt).
  Proof. clear - m. unfold one_sch. rewrite nth_error_app2 by (rewrite repeat_length; lia). rewrite repeat_length. now rewrite Nat.sub_diag. Qed.
  Lemma one_at_c : nth_error one_sch (S m) = Some (Collating tt).
  Proof. clear - m. unfold one_sch. rewrite nth_error_app2 by (rewrite repeat_length; lia). rewrite repeat_length. now replace (S m - m)%nat with 1%nat by lia. Qed.
  Lemma one_at_i k : (k < m)%nat -> nth k one_sch Idle = Idle.
  Proof. clear - m. intros H. unfold one_sch. rewrite app_nth1 by (now rewrite repeat_length). apply nth_repeat. Qed.

  Lemma one_h1 (j j' : unit) i i' : tmp_name i = tmp_name i' -> j = j' /\ i = i'.
  Proof. intros E. destruct j, j'. split; [reflexivity|now apply tmp_name_inj]. Qed.
  Lemma one_h3 (j j' : unit) i : out <> tmp_name i.
  Proof. intros E. apply Hout. apply glob_temp. rewrite E. apply tmp_glob. Qed.
  Lemma one_h5 (j : unit) i : glob (rm_prefix (tmp_name 0)) (lit ".dat") (tmp_name i) = true.
  Proof. rewrite rm_prefix_tmp. apply tmp_glob. Qed.
  Lemma one_h7 (j j' : unit) : glob (rm_prefix (tmp_name 0)) (lit ".dat") out = false.
  Proof. rewrite rm_prefix_tmp. apply not_true_is_false. intros E. apply Hout. now apply glob_temp. Qed.
  Lemma one_h8 k k' j : nth_error one_sch k = Some (Writing j) -> nth_error one_sch k' = Some (Collating j) -> (k < k')%nat.
  Proof. clear - m. destruct j. intros A B. apply one_writing in A. apply one_collating in B. lia. Qed.
  Lemma one_h9 k k' j : nth_error one_sch k = Some (Writing j) -> nth_error one_sch k' = Some (Writing j) -> k = k'.
  Proof. clear - m. destruct j. intros A B. apply one_writing in A. apply one_writing in B. lia. Qed.

  Notation sat1 := (Proofs_MPI10.sat (A := unit) n (own_of dir one_name extra one_sch) (R_of n dir one_name hdr row one_sch)
    (C_of n dir one_name one_out extra hdr row tab one_sch)).
  Notation entry1 := (entry dir one_name one_sch).

  Lemma one_job i {H} (line : H -> res str) hs f : (i < n)%nat -> entry1 m i f ->
    (forall h s, In h hs -> line h = Ok s -> exists x, s = row_text (row x)) ->
    sat1 i m (write_rank_file (dir, tmp_name i) hdr line hs (Barrier (if Nat.eqb i 0 then collate dir tmp_name out n (Exit (Ok tt)) else Exit (Ok tt)))) f.
  Proof.
    intros Hi He Hl.
    apply (sat_job n Hn dir one_name one_out extra hdr Hhdr w Hw row tab Hrow Htab one_sch one_h1 (fun j j' _ => match j, j' with tt, tt => eq_refl end)
      one_h3 one_h5 (fun j j' i N => match N (match j, j' with tt, tt => eq_refl end) with end) one_h7 one_h8 one_h9
      (fun j j' => left (match j, j' with tt, tt => eq_refl end)) i m tt line hs); [exact Hi|apply one_at_w|apply one_at_c|exact He|exact Hl|].
    intros g _. apply sat_exit.
  Qed.
  Lemma one_idle i k p f : (i < n)%nat -> (k < m)%nat -> entry1 (S k) i f -> (forall g, entry1 (S k) i g -> sat1 i (S k) p g) -> sat1 i k (Barrier p) f.
  Proof. intros Hi Hk. apply (sat_idle n Hn); [exact Hi|now apply one_at_i]. Qed.
  Lemma one_create q h p f : extra q -> entry1 m 0 f -> (forall f, entry1 m 0 f -> sat1 0 m p f) -> sat1 0 m (Create q (put_all q h p)) f.
  Proof. intros Hq. apply (sat_create_extra n dir one_name one_out extra hdr row tab one_sch (fun _ i => Hx1 i) (fun _ => Hx2) q m tt); [exact Hq|apply one_at_w]. Qed.
  Lemma one_entry k i f : f (dir, tmp_name i) = None -> entry1 k i f.
  Proof. intros E j _ x. cbv beta. rewrite E. discriminate. Qed.

  Lemma one_kept eager (main : nat -> prog unit) f k s k' s' i x : (forall i, (i < n)%nat -> sat1 i 0 (main i) f) ->
    steps eager n k (start main f) s -> steps eager n k' s s' -> (i < n)%nat -> fs s (dir, tmp_name i) = Some (Text x) ->
    not_lost (fs s' (dir, tmp_name i)) (fs s' (dir, out)) hdr (fun y => row_text (row y)) tab x.
  Proof.
    intros H0 S1 S2 Hi E.
    exact (jobs_kept n dir one_name one_out extra hdr row tab one_sch one_h1 (fun _ => Hx1) eager main f k s k' s' tt i x H0 S1 S2 Hi E).
  Qed.
  Lemma one_alien eager (main : nat -> prog unit) f k s d b : (forall i, (i < n)%nat -> sat1 i 0 (main i) f) ->
    steps eager n k (start main f) s -> ~ extra (d, b) -> (d, b) <> (dir, out) -> ~ (d = dir /\ temp_file (lit "tmp_mah_fits_rank_") b) ->
    fs s (d, b) = f (d, b).
  Proof.
    intros H0 S1 A1 A2 A3.
    apply (jobs_alien n dir one_name one_out extra hdr row tab one_sch one_h1 (fun _ => Hx1) eager main f k s (d, b) H0 S1).
    split; [exact A1|]. split.
    - intros k0 j _ i Hi E. injection E as -> ->. apply A3. split; [reflexivity|]. apply glob_temp, tmp_glob.
    - intros k0 j _. split; [exact A2|]. apply not_true_is_false. intros E. apply andb_true_iff in E as [E1 E2]. cbn [fst snd] in *.
      apply eqb_str_eq in E1. apply A3. split; [exact E1|]. rewrite rm_prefix_tmp in E2. now apply glob_temp.
  Qed.
End One.

Lemma fit_line_row {H} (fit : H -> res FitResult) hs h s : In h hs -> fit_line fit h = Ok s -> exists fr, s = row_text (out_fields fr).
Proof. intros _. unfold fit_line. destruct (fit h) as [fr|]; cbn [bind]; [|discriminate]. injection 1 as <-. exists fr. apply outline_row. Qed.
Lemma fit_line_row_id {H} (fit : H -> res FitResult) hs h s : In h hs -> fit_line_id fit h = Ok s ->
  exists p : Z * FitResult, s = row_text (str_of_int (fst p) :: out_fields (snd p)).
Proof. intros _. unfold fit_line_id. destruct (fit (snd h)) as [fr|]; cbn [bind]; [|discriminate]. injection 1 as <-. exists (fst h, fr). apply outline_row_id. Qed.

Section Scripts.
  Context (eager : nat -> nat -> msg -> bool) (n : nat) (Hn : (0 < n)%nat) (outdir : str) (f : tree)
    (H0 : forall i, (i < n)%nat -> f (outdir, tmp_name i) = None).

  Definition none_extra : path -> Prop := fun _ => False.
  Definition bpl_extra : path -> Prop := fun q => q = (outdir, lit "bpl_mpeak_histories.hdf5").
  Lemma bpl_extra_tmp i : ~ bpl_extra (outdir, tmp_name i).
  Proof. intros E. apply (f_equal snd) in E. cbn [snd] in E. discriminate. Qed.
  Lemma bpl_extra_out : ~ bpl_extra (outdir, lit "diffmah_fits.hdf5").
  Proof. intros E. apply (f_equal snd) in E. cbn [snd] in E. discriminate. Qed.
  Lemma fits_not_temp b : hd_error b <> Some "t"%char -> ~ temp_file (lit "tmp_mah_fits_rank_") b.
  Proof. now apply not_temp. Qed.

  Notation sat8 out m := (Proofs_MPI10.sat (A := unit) n (own_of outdir (fun _ : unit => tmp_name) none_extra (one_sch m))
    (R_of n outdir (fun _ => tmp_name) HEADER out_fields (one_sch m))
    (C_of n outdir (fun _ => tmp_name) (fun _ => out) none_extra HEADER out_fields fit_columns (one_sch m))).
  Notation job8 out Ho m := (one_job n Hn outdir out none_extra HEADER comment_HEADER 8 ltac:(lia) out_fields fit_columns words_none fits_table Ho m).
  Notation idle8 out m := (one_idle n Hn outdir out none_extra HEADER out_fields fit_columns m).

  Lemma tng_out : ~ temp_file (lit "tmp_mah_fits_rank_") (lit "diffmah_tng_fits.hdf5").
  Proof. apply fits_not_temp. discriminate. Qed.
  Lemma tng_sat fitter mahs i : (i < n)%nat -> sat8 (lit "diffmah_tng_fits.hdf5") 2%nat i 0%nat (tng_main fitter outdir mahs n i) f.
  Proof.
    intros Hi. unfold tng_main. apply sat_lift. intros splits _. apply sat_lift. intros indx _. apply sat_lift. intros ms _.
    apply (idle8 (lit "diffmah_tng_fits.hdf5") 2%nat); [exact Hi|lia|now apply one_entry, H0|]. intros g Hg.
    apply sat_reduce. intros _. apply (idle8 (lit "diffmah_tng_fits.hdf5") 2%nat); [exact Hi|lia| |].
    { intros j (k & L & E). refine (Hg j _). exists k. split; [lia|exact E]. }
    intros g' Hg'. apply (job8 (lit "diffmah_tng_fits.hdf5") tng_out 2%nat); [exact Hi|exact Hg'|]. intros h s. apply fit_line_row.
  Qed.

  Lemma galacticus_sat fitter dt out halos i : (i < n)%nat -> ~ temp_file (lit "tmp_mah_fits_rank_") out ->
    sat8 out 3%nat i 0%nat (galacticus_main fitter dt outdir out halos n i) f.
  Proof.
    intros Hi Ho. unfold galacticus_main. apply sat_lift. intros splits _. apply sat_lift. intros indx _. apply sat_lift. intros a _.
    apply sat_lift. intros b _. apply (idle8 out 3%nat); [exact Hi|lia|now apply one_entry, H0|]. intros g Hg.
    apply sat_lift. intros t _. apply sat_allreduce. intros [l|v|z|x]; try apply sat_exit.
    apply (idle8 out 3%nat); [exact Hi|lia| |].
    { intros j (k & L & E). refine (Hg j _). exists k. split; [lia|exact E]. }
    intros g2 Hg2. apply (idle8 out 3%nat); [exact Hi|lia| |].
    { intros j (k & L & E). refine (Hg2 j _). exists k. split; [lia|exact E]. }
    intros g3 Hg3. apply (job8 out Ho 3%nat); [exact Hi|exact Hg3|]. intros h s. apply fit_line_row.
  Qed.

  Lemma bpl_sat fitter ids mahs times i : (i < n)%nat ->
    Proofs_MPI10.sat (A := unit) n (own_of outdir (fun _ : unit => tmp_name) bpl_extra (one_sch 0))
      (R_of n outdir (fun _ => tmp_name) HEADER_HALO_ID (fun p : Z * FitResult => str_of_int (fst p) :: out_fields (snd p)) (one_sch 0))
      (C_of n outdir (fun _ => tmp_name) (fun _ => lit "diffmah_fits.hdf5") bpl_extra HEADER_HALO_ID
         (fun p : Z * FitResult => str_of_int (fst p) :: out_fields (snd p))
         (fun ps => fit_columns_with_ids (map fst ps) (map snd ps)) (one_sch 0))
      i 0%nat (bpl_main fitter outdir ids mahs times n i) f.
  Proof.
    intros Hi.
    assert (HR : forall g, entry outdir (fun _ : unit => tmp_name) (one_sch 0) 0 i g ->
      Proofs_MPI10.sat (A := unit) n (own_of outdir (fun _ : unit => tmp_name) bpl_extra (one_sch 0))
      (R_of n outdir (fun _ => tmp_name) HEADER_HALO_ID (fun p : Z * FitResult => str_of_int (fst p) :: out_fields (snd p)) (one_sch 0))
      (C_of n outdir (fun _ => tmp_name) (fun _ => lit "diffmah_fits.hdf5") bpl_extra HEADER_HALO_ID
         (fun p : Z * FitResult => str_of_int (fst p) :: out_fields (snd p))
         (fun ps => fit_columns_with_ids (map fst ps) (map snd ps)) (one_sch 0))
      i 0%nat (lift (array_split (seq 0 (List.length ids)) n) (fun splits =>
    lift (index splits i) (fun indx =>
    lift (take ids indx) (fun halo_ids_for_rank =>
    lift (take mahs indx) (fun mahs_for_rank =>
    write_rank_file (outdir, tmp_name i) HEADER_HALO_ID (fit_line_id fitter)
      (combine halo_ids_for_rank mahs_for_rank) (
    Barrier (
    if Nat.eqb i 0
    then collate outdir tmp_name (lit "diffmah_fits.hdf5") n (Exit (Ok tt))
    else Exit (Ok tt)))))))) g).
    { intros g Hg. apply sat_lift. intros splits _. apply sat_lift. intros indx _. apply sat_lift. intros a _. apply sat_lift. intros b _.
      apply (one_job n Hn outdir (lit "diffmah_fits.hdf5") bpl_extra HEADER_HALO_ID comment_HEADER_HALO_ID 9 ltac:(lia)
        (fun p : Z * FitResult => str_of_int (fst p) :: out_fields (snd p)) (fun ps => fit_columns_with_ids (map fst ps) (map snd ps))
        (fun p => words_some (snd p) (fst p)) fits_table_ids (fits_not_temp (lit "diffmah_fits.hdf5") ltac:(discriminate)) 0); [exact Hi|exact Hg|].
      intros h s. apply fit_line_row_id. }
    unfold bpl_main. destruct (Nat.eqb_spec i 0) as [->|N].
    - apply (one_create n outdir (lit "diffmah_fits.hdf5") bpl_extra HEADER_HALO_ID _ _ bpl_extra_tmp bpl_extra_out 0); [reflexivity|now apply one_entry, H0|exact HR].
    - apply HR. now apply one_entry, H0.
  Qed.
End Scripts.

(** ** Many jobs *)

Section Items.
  Context (n : nat) (Hn : (0 < n)%nat) (fitter : list xr -> list xr -> res FitResult)
    (load : Z -> Z -> res (list xr * list (list xr))) (outdir : str) (w : nat).
  Definition job := (Z * nat)%type.
  Definition jname (j : job) (i : nat) : str := chunk_tmp w (fst j) (Z.of_nat (snd j)) i.
  Definition jout (j : job) : str := chunk_name w (fst j) (Z.of_nat (snd j)) ++ lit ".hdf5".
  Definition kinds_of (it : option (Z * Z)) : list (kind job) :=
    match it with Some (s, c) => [Idle; Idle; Writing (s, Z.to_nat c); Collating (s, Z.to_nat c)] | None => [Idle] end.
  Definition jobs_of (it : option (Z * Z)) : list job := match it with Some (s, c) => [(s, Z.to_nat c)] | None => [] end.

  Lemma kinds_w l : forall k j, nth_error (flat_map kinds_of l) k = Some (Writing j) -> In j (flat_map jobs_of l).
  Proof. clear.
    intros k j E. apply nth_error_In, in_flat_map in E as (it & Hi & E). apply in_flat_map. exists it. split; [exact Hi|].
    destruct it as [[s c]|]; cbn in E |- *; intuition congruence.
  Qed.
  Lemma kinds_c l : forall k j, nth_error (flat_map kinds_of l) k = Some (Collating j) -> In j (flat_map jobs_of l).
  Proof. clear.
    intros k j E. apply nth_error_In, in_flat_map in E as (it & Hi & E). apply in_flat_map. exists it. split; [exact Hi|].
    destruct it as [[s c]|]; cbn in E |- *; intuition congruence.
  Qed.
  Lemma kinds_order l : NoDup (flat_map jobs_of l) -> forall k k' j, nth_error (flat_map kinds_of l) k = Some (Writing j) ->
    nth_error (flat_map kinds_of l) k' = Some (Collating j) -> (k < k')%nat.
  Proof. clear.
    induction l as [|[[s c]|] l IH]; intros ND k k' j E E'; cbn [flat_map kinds_of jobs_of app] in *.
    - destruct k; discriminate.
    - inversion ND as [|a b Hn' Hd]; subst.
      destruct k as [|[|[|[|k]]]]; cbn [nth_error] in E; try discriminate; destruct k' as [|[|[|[|k']]]]; cbn [nth_error] in E'; try discriminate.
      + lia.
      + lia.
      + injection E' as <-. apply kinds_w in E. now contradict Hn'.
      + specialize (IH Hd k k' j E E'). lia.
    - destruct k as [|k], k' as [|k']; cbn [nth_error] in E, E'; try discriminate. specialize (IH ND k k' j E E'). lia.
  Qed.
  Lemma kinds_once l : NoDup (flat_map jobs_of l) -> forall k k' j, nth_error (flat_map kinds_of l) k = Some (Writing j) ->
    nth_error (flat_map kinds_of l) k' = Some (Writing j) -> k = k'.
  Proof. clear.
    induction l as [|[[s c]|] l IH]; intros ND k k' j E E'; cbn [flat_map kinds_of jobs_of app] in *.
    - destruct k; discriminate.
    - inversion ND as [|a b Hn' Hd]; subst.
      destruct k as [|[|[|[|k]]]]; cbn [nth_error] in E; try discriminate; destruct k' as [|[|[|[|k']]]]; cbn [nth_error] in E'; try discriminate.
      + reflexivity.
      + injection E as <-. apply kinds_w in E'. now contradict Hn'.
      + injection E' as <-. apply kinds_w in E. now contradict Hn'.
      + now rewrite (IH Hd k k' j E E').
    - destruct k as [|k], k' as [|k']; cbn [nth_error] in E, E'; try discriminate. now rewrite (IH ND k k' j E E').
  Qed.

  Lemma job_dec (j j' : job) : {j = j'} + {j <> j'}.
  Proof. clear. repeat decide equality. Qed.
  Lemma jname_fields j j' i i' : jname j i = jname j' i' -> j = j' /\ i = i'.
  Proof. clear - w.
    destruct j as [s c], j' as [s' c']. unfold jname. cbn [fst snd]. intros E.
    assert (E2 := f_equal (split_on "_"%char) E). rewrite !chunk_tmp_split in E2.
    injection E2 as E3 E4 _. apply str_of_int_inj in E3. subst s'. apply pad_inj in E4; [|lia|lia]. apply Nat2Z.inj in E4. subst c'.
    split; [reflexivity|]. now apply chunk_tmp_inj in E.
  Qed.
  Lemma jout_inj j j' : jout j = jout j' -> j = j'.
  Proof. clear - w.
    destruct j as [s c], j' as [s' c']. unfold jout. cbn [fst snd]. intros E. apply chunk_name_inj in E; [|cbn; intuition discriminate|lia|lia].
    destruct E as [-> E]. apply Nat2Z.inj in E. now subst.
  Qed.
  Lemma jout_not_temp pre j : glob pre (lit ".dat") (jout j) = false.
  Proof. clear - w. apply not_true_is_false. intros E. apply glob_temp in E. now apply hdf5_not_temp in E. Qed.
  Lemma jrm j : rm_prefix (jname j 0) = chunk_name w (fst j) (Z.of_nat (snd j)) ++ lit "_tmp_mah_fits_rank_".
  Proof. clear - w. apply chunk_rm. Qed.
  Lemma jh3 j j' i : jout j <> jname j' i.
  Proof. clear - w. intros E. pose proof (jout_not_temp (rm_prefix (jname j' 0)) j) as H. rewrite E, jrm in H. unfold jname in H. now rewrite chunk_glob in H. Qed.
  Lemma jh5 j i : glob (rm_prefix (jname j 0)) (lit ".dat") (jname j i) = true.
  Proof. clear - w. rewrite jrm. apply chunk_glob. Qed.
  Lemma jh6 j j' i : j <> j' -> glob (rm_prefix (jname j 0)) (lit ".dat") (jname j' i) = false.
  Proof. clear - w.
    intros N. apply not_true_is_false. intros E. apply N. rewrite jrm in E. apply glob_spec in E as (mid & E & _).
    assert (E2 := f_equal (split_on "_"%char) E). unfold jname in E2. rewrite chunk_tmp_split in E2.
    assert (E3 : exists r, split_on "_"%char ((chunk_name w (fst j) (Z.of_nat (snd j)) ++ lit "_tmp_mah_fits_rank_") ++ mid ++ lit ".dat") =
      lit "subvol" :: str_of_int (fst j) :: lit "chunk" :: pad_int w (Z.of_nat (snd j)) :: r).
    { eexists. unfold chunk_name.
      replace (((lit "subvol_" ++ str_of_int (fst j) ++ lit "_chunk_" ++ pad_int w (Z.of_nat (snd j))) ++ lit "_tmp_mah_fits_rank_") ++ mid ++ lit ".dat")
        with (lit "subvol" ++ "_"%char :: str_of_int (fst j) ++ "_"%char :: lit "chunk" ++ "_"%char :: pad_int w (Z.of_nat (snd j)) ++ "_"%char :: lit "tmp_mah_fits_rank_" ++ mid ++ lit ".dat").
      2:{ change (lit "subvol_") with (lit "subvol" ++ ["_"%char]). change (lit "_chunk_") with ("_"%char :: lit "chunk" ++ ["_"%char]).
          change (lit "_tmp_mah_fits_rank_") with ("_"%char :: lit "tmp_mah_fits_rank_"). rewrite <- !app_assoc. cbn [app]. rewrite <- !app_assoc. reflexivity. }
      rewrite split_on_cons by (cbn; intuition discriminate). rewrite split_on_cons by (apply int_no, unsafe_underscore).
      rewrite split_on_cons by (cbn; intuition discriminate). rewrite split_on_cons by (apply pad_no, unsafe_underscore). reflexivity. }
    destruct E3 as (r & E3). rewrite E3 in E2. injection E2 as E4 E5 _. apply str_of_int_inj in E4. apply pad_inj in E5; [|lia|lia].
    apply Nat2Z.inj in E5. destruct j, j'. cbn in *. congruence.
  Qed.

  Context (items : list (option (Z * Z))) (Hnn : forall s c, In (Some (s, c)) items -> (0 <= c)%Z) (ND : NoDup (flat_map jobs_of items)).
  Definition all_kinds : list (kind job) := flat_map kinds_of items.
  Definition no_extra : path -> Prop := fun _ => False.

  Notation satn := (Proofs_MPI10.sat (A := unit) n (own_of outdir jname no_extra all_kinds) (R_of n outdir jname HEADER out_fields all_kinds)
    (C_of n outdir jname jout no_extra HEADER out_fields fit_columns all_kinds)).
  Notation entryn := (entry outdir jname all_kinds).

  Lemma nth_kinds pre l k : items = pre ++ l -> nth_error all_kinds (List.length (flat_map kinds_of pre) + k) = nth_error (flat_map kinds_of l) k.
  Proof. intros E. unfold all_kinds. rewrite E, flat_map_app, nth_error_app2 by lia. f_equal. lia. Qed.

  Lemma entry_weaken k i f : entryn k i f -> entryn (S k) i f.
  Proof. intros He j (k' & L & E). apply He. exists k'. split; [lia|exact E]. Qed.

  Lemma nth_idle k : nth_error all_kinds k = Some Idle -> nth k all_kinds Idle = Idle.
  Proof. intros E. now apply nth_error_nth. Qed.

  Lemma items_sat i : (i < n)%nat -> forall l pre, items = pre ++ l -> forall f, entryn (List.length (flat_map kinds_of pre)) i f ->
    satn i (List.length (flat_map kinds_of pre)) (run_items n fitter load outdir w i l (Exit (Ok tt))) f.
  Proof.
    intros Hi. induction l as [|it l IH]; intros pre E f He; [apply sat_exit|].
    pose proof (fun k => nth_kinds pre (it :: l) k E) as HK. set (K := List.length (flat_map kinds_of pre)) in *.
    assert (E' : items = (pre ++ [it]) ++ l) by (now rewrite <- app_assoc).
    specialize (IH _ E'). rewrite flat_map_app, app_length in IH. cbn [flat_map] in IH. rewrite app_nil_r in IH. fold K in IH.
    cbn [run_items fold_right]. change (fold_right (run_item n fitter load outdir w i) (Exit (Ok tt)) l) with (run_items n fitter load outdir w i l (Exit (Ok tt))).
    destruct it as [[s c]|]; cbn [kinds_of List.length run_item] in *.
    - assert (Hc : (0 <= c)%Z) by (apply (Hnn s c); rewrite E; apply in_or_app; right; now left).
      pose proof (HK 0%nat) as K0. pose proof (HK 1%nat) as K1. pose proof (HK 2%nat) as K2. pose proof (HK 3%nat) as K3.
      cbn [flat_map kinds_of app nth_error] in K0, K1, K2, K3. rewrite Nat.add_0_r in K0.
      replace (K + 1)%nat with (S K) in K1 by lia. replace (K + 2)%nat with (S (S K)) in K2 by lia. replace (K + 3)%nat with (S (S (S K))) in K3 by lia.
      replace (K + 4)%nat with (S (S (S (S K)))) in IH by lia.
      unfold chunk_job. apply (sat_idle n Hn); [exact Hi|now apply nth_idle|now apply entry_weaken|]. intros g1 G1.
      apply sat_load. intros tarr mahs. apply sat_reduce. intros _.
      apply (sat_idle n Hn); [exact Hi|now apply nth_idle|now apply entry_weaken|]. intros g2 G2.
      rewrite chunk_out_name.
      pose proof (sat_job n Hn outdir jname jout no_extra HEADER comment_HEADER 8 ltac:(lia) out_fields fit_columns words_none fits_table all_kinds
        jname_fields jout_inj jh3 jh5 jh6 (fun j j' => jout_not_temp _ j') (kinds_order items ND) (kinds_once items ND) job_dec
        i (S (S K)) (s, Z.to_nat c) (fit_line (fitter tarr)) mahs (Barrier (run_items n fitter load outdir w i l (Exit (Ok tt)))) g2 Hi K2 K3 G2
        (fun h s => fit_line_row (fitter tarr) mahs h s)) as HJ.
      assert (En : chunk_tmp w s c = jname (s, Z.to_nat c)) by (unfold jname; cbn [fst snd]; now rewrite Z2Nat.id).
      assert (Eo : chunk_name w s c ++ lit ".hdf5" = jout (s, Z.to_nat c)) by (unfold jout; cbn [fst snd]; now rewrite Z2Nat.id).
      rewrite En, Eo. apply HJ. clear HJ. intros g Hg. apply sat_barrier.
      + unfold R_of. rewrite (nth_error_nth _ _ _ K3). exact Hg.
      + intros g' HR. apply IH. now apply (entry_next n Hn outdir jname HEADER out_fields all_kinds).
    - pose proof (HK 0%nat) as K0. cbn [flat_map kinds_of app nth_error] in K0. rewrite Nat.add_0_r in K0. replace (K + 1)%nat with (S K) in IH by lia.
      apply (sat_idle n Hn); [exact Hi|now apply nth_idle|now apply entry_weaken|]. intros g1 G1. now apply IH.
  Qed.
End Items.

Lemma NoDup_app_disjoint {X} (l l' : list X) : NoDup l -> NoDup l' -> (forall x, In x l -> ~ In x l') -> NoDup (l ++ l').
Proof.
  intros H H' HD. induction H as [|x l Hx Hl IH]; [exact H'|]. cbn [app]. constructor.
  - intros Hin. apply in_app_or in Hin as [Hin|Hin]; [now apply Hx|]. now apply (HD x (or_introl eq_refl)).
  - apply IH. intros y Hy. apply HD. now right.
Qed.
Lemma NoDup_map_inj {X Y} (g : X -> Y) l : (forall x y, In x l -> In y l -> g x = g y -> x = y) -> NoDup l -> NoDup (map g l).
Proof.
  intros Hg H. induction H as [|x l Hx Hl IH]; [constructor|]. cbn [map]. constructor.
  - intros Hin. apply in_map_iff in Hin as (y & E & Hy). apply Hg in E; [|now right|now left]. now subst y.
  - apply IH. intros a b Ha Hb. apply Hg; now right.
Qed.
Lemma zrange_NoDup a b : NoDup (zrange a b).
Proof.
  unfold zrange. apply NoDup_map_inj; [|apply seq_NoDup]. intros x y _ _. lia.
Qed.
Lemma jobs_items chunks subvols : flat_map jobs_of (items_of chunks subvols) =
  flat_map (fun s => map (fun c => (s, Z.to_nat c)) chunks) subvols.
Proof.
  unfold items_of. rewrite flat_map_app. cbn [flat_map jobs_of app]. rewrite app_nil_r.
  induction subvols as [|s l IH]; [reflexivity|]. cbn [flat_map]. rewrite flat_map_app, IH. f_equal.
  rewrite flat_map_app. cbn [flat_map jobs_of app]. rewrite app_nil_r. clear IH.
  induction chunks as [|c chunks IHc]; [reflexivity|]. cbn [map flat_map jobs_of app]. now rewrite IHc.
Qed.
Lemma items_NoDup chunks subvols : NoDup subvols -> NoDup chunks -> (forall c, In c chunks -> (0 <= c)%Z) ->
  NoDup (flat_map jobs_of (items_of chunks subvols)).
Proof.
  intros Hs Hc Hp. rewrite jobs_items. induction Hs as [|s l Hx Hl IH]; [constructor|]. cbn [flat_map]. apply NoDup_app_disjoint.
  - apply NoDup_map_inj; [|exact Hc]. intros x y Hx' Hy' E'. injection E' as E'. apply Z2Nat.inj; auto.
  - exact IH.
  - intros [a b] H1 H2. apply in_map_iff in H1 as (c & E1 & _). injection E1 as <- _. apply in_flat_map in H2 as (s' & Hs' & H2).
    apply in_map_iff in H2 as (c' & E2 & _). injection E2 as -> _. contradiction.
Qed.

Section LastJourney.
  Context (eager : nat -> nat -> msg -> bool) (n : nat) (Hn : (0 < n)%nat) (fitter : list xr -> list xr -> res FitResult)
    (load : Z -> Z -> res (list xr * list (list xr))) (outdir : str) (nchunks : Z) (subvols : list Z) (ND : NoDup subvols) (f : tree).
  Notation w := (List.length (str_of_int nchunks)).
  Context (H0 : forall s c i, In s subvols -> (0 <= c < nchunks)%Z -> (i < n)%nat -> f (outdir, chunk_tmp w s c i) = None).

  Notation items := (items_of (zrange 0 nchunks) subvols).
  Lemma lj_nonneg s c : In (Some (s, c)) items -> (0 <= c)%Z.
  Proof. intros H. apply items_jobs in H as [_ H]. apply zrange_nonneg in H. lia. Qed.
  Lemma lj_NoDup : NoDup (flat_map jobs_of items).
  Proof. apply items_NoDup; [exact ND|apply zrange_NoDup|]. intros c H. apply zrange_nonneg in H. lia. Qed.
  Lemma lj_jobs s c : In (s, c) (flat_map jobs_of items) -> In s subvols /\ (0 <= Z.of_nat c < nchunks)%Z.
  Proof.
    intros H. apply in_flat_map in H as ([[s' c']|] & Hi & H); [|destruct H]. destruct H as [E|[]]. injection E as -> <-.
    apply items_jobs in Hi as [Hs Hc]. apply zrange_nonneg in Hc. split; [exact Hs|lia].
  Qed.

  Lemma lj_sat i : (i < n)%nat -> Proofs_MPI10.sat (A := unit) n (own_of outdir (jname w) no_extra (all_kinds items))
    (R_of n outdir (jname w) HEADER out_fields (all_kinds items))
    (C_of n outdir (jname w) (jout w) no_extra HEADER out_fields fit_columns (all_kinds items)) i 0%nat
    (lastjourney_main fitter load outdir nchunks subvols n i) f.
  Proof.
    intros Hi. unfold lastjourney_main. rewrite subvol_jobs_items.
    apply (items_sat n Hn fitter load outdir w items lj_nonneg lj_NoDup i Hi items [] eq_refl).
    intros [s c] (k & _ & E) x. apply kinds_w, lj_jobs in E. unfold jname. cbn [fst snd].
    rewrite H0; [discriminate|exact (proj1 E)|exact (proj2 E)|exact Hi].
  Qed.

  Lemma lj_kept k st k' st' s c i x : steps eager n k (start (lastjourney_main fitter load outdir nchunks subvols n) f) st ->
    steps eager n k' st st' -> (0 <= c)%Z -> (i < n)%nat -> fs st (outdir, chunk_tmp w s c i) = Some (Text x) ->
    not_lost (fs st' (outdir, chunk_tmp w s c i)) (fs st' (outdir, chunk_name w s c ++ lit ".hdf5")) HEADER (fun fr => row_text (out_fields fr)) fit_columns x.
  Proof.
    intros S1 S2 Hc Hi E. rewrite <- (Z2Nat.id c Hc) in E |- *.
    exact (jobs_kept n outdir (jname w) (jout w) no_extra HEADER out_fields fit_columns (all_kinds items) (jname_fields w) (fun _ _ F => F)
      eager _ f k st k' st' (s, Z.to_nat c) i x lj_sat S1 S2 Hi E).
  Qed.
  Lemma lj_alien k st d b : steps eager n k (start (lastjourney_main fitter load outdir nchunks subvols n) f) st ->
    (forall s c, In s subvols -> (0 <= c < nchunks)%Z -> (d, b) <> (outdir, chunk_name w s c ++ lit ".hdf5") /\
       ~ (d = outdir /\ temp_file (chunk_name w s c ++ lit "_tmp_mah_fits_rank_") b)) -> fs st (d, b) = f (d, b).
  Proof.
    intros S1 HA.
    apply (jobs_alien n outdir (jname w) (jout w) no_extra HEADER out_fields fit_columns (all_kinds items) (jname_fields w) (fun _ _ F => F)
      eager _ f k st (d, b) lj_sat S1).
    split; [intros []|]. split.
    - intros k0 [s c] E i Hi Eq. apply kinds_w, lj_jobs in E as [E1 E2]. apply (proj2 (HA s (Z.of_nat c) E1 E2)).
      split; [now apply (f_equal fst) in Eq|]. apply (f_equal snd) in Eq. cbn [snd] in Eq. rewrite Eq. apply glob_temp. unfold jname. cbn [fst snd]. apply chunk_glob.
    - intros k0 [s c] E. apply kinds_c, lj_jobs in E as [E1 E2]. destruct (HA s (Z.of_nat c) E1 E2) as [A1 A2]. split; [exact A1|].
      apply not_true_is_false. intros G. apply andb_true_iff in G as [G1 G2]. cbn [fst snd] in *. apply eqb_str_eq in G1.
      apply A2. split; [exact G1|]. rewrite jrm in G2. now apply glob_temp.
  Qed.
End LastJourney.

(** ** A run of one rank *)

Lemma step_one_disk eager (s : state unit) p f : disk_step (procs s 0) (fs s) = Some (p, f) ->
  step eager 1 s (mkState (pset (procs s) 0 p) (chan s) f).
Proof. apply step_disk. lia. Qed.
Lemma step_one_barrier eager (s : state unit) p : procs s 0 = Barrier p ->
  step eager 1 s (mkState (fun i => if Nat.ltb i 1 then p else procs s i) (chan s) (fs s)).
Proof. intros E. apply (step_barrier eager 1 s (fun _ => p)); [lia|]. intros i Hi. now replace i with 0%nat by lia. Qed.

(** One rank, two halos: killed after the first line; and killed after opening the file. *)
Lemma tng_first_line eager outdir (fitter : list xr -> res FitResult) fr f : fitter [] = Ok fr ->
  exists s, steps eager 1 5 (start (tng_main fitter outdir [[]; []] 1) f) s /\
    fs s (outdir, tmp_name 0) = Some (Text (HEADER ++ get_outline fr None)) /\
    fs s (outdir, lit "diffmah_tng_fits.hdf5") = f (outdir, lit "diffmah_tng_fits.hdf5").
Proof.
  intros E. eexists. split.
  - eapply steps_S; [eapply step_one_barrier; reflexivity|]. eapply steps_S; [eapply step_one_barrier; reflexivity|].
    eapply steps_S; [eapply step_one_disk; reflexivity|]. eapply steps_S; [eapply step_one_disk; cbn [procs fs pset Nat.eqb disk_step]; rewrite fset_same; reflexivity|].
    eapply steps_S; [|apply steps_0]. eapply step_one_disk. cbn [procs fs pset Nat.eqb write_lines fit_line]. unfold fit_line. rewrite E. cbn [bind lift disk_step].
    rewrite fset_same. reflexivity.
  - cbn [fs]. rewrite fset_same. split; [reflexivity|].
    rewrite !fset_other; [reflexivity|..]; intros H; apply (f_equal snd) in H; cbn [snd] in H; discriminate.
Qed.
Lemma tng_opened eager outdir (fitter : list xr -> res FitResult) f :
  exists s, steps eager 1 3 (start (tng_main fitter outdir [[]; []] 1) f) s /\
    fs s (outdir, tmp_name 0) = Some (Text []) /\ fs s (outdir, lit "diffmah_tng_fits.hdf5") = f (outdir, lit "diffmah_tng_fits.hdf5").
Proof.
  eexists. split.
  - eapply steps_S; [eapply step_one_barrier; reflexivity|]. eapply steps_S; [eapply step_one_barrier; reflexivity|].
    eapply steps_S; [eapply step_one_disk; reflexivity|]. apply steps_0.
  - cbn [fs]. split; [apply fset_same|]. apply fset_other. intros H. apply (f_equal snd) in H. cbn [snd] in H. discriminate.
Qed.
