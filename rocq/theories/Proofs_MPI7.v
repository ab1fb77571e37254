(** Runs of the Last Journey and Discovery scripts. *)

From Coq Require Import Reals Lra Lia List ZArith Bool Ascii String FunctionalExtensionality.
From Verif Require Import Model_Num Model_Base Model_Kernels Model_Adam Model_Fitter Model_Outline
  Model_Utils Model_Data Model_MPI Spec_Kernels Spec_Fitter Spec_Outline Spec_MPI Proofs_Fitter Proofs_Fitter2 Proofs_Outline
  Proofs_Outline2 Props_Outline Spec_Data Proofs_Data Proofs_MPI Proofs_MPI2 Proofs_MPI3 Proofs_MPI4 Proofs_MPI5.
Import ListNotations.
Local Open Scope list_scope.

(** ** Names *)

Lemma split_on_join c l : l <> [] -> Forall (fun s => ~ In c s) l -> split_on c (join_on c l) = l.
Proof.
  intros N H. induction H as [|s l Hs Hl IH]; [contradiction|]. destruct l as [|s' l].
  - cbn [join_on]. now apply split_on_none.
  - change (join_on c (s :: s' :: l)) with (s ++ c :: join_on c (s' :: l)).
    rewrite split_on_cons by exact Hs. f_equal. apply IH. discriminate.
Qed.

Lemma value_of_zeros k ds : value_of (repeat 0%Z k ++ ds) = value_of ds.
Proof. unfold value_of. induction k as [|k IH]; [reflexivity|]. cbn [repeat app fold_left]. exact IH. Qed.

Lemma pad_digits w z : (0 <= z)%Z -> exists ds, pad_int w z = map digit_char ds /\ Forall is_digit ds /\ value_of ds = z.
Proof.
  intros H. unfold pad_int. destruct (digits_spec z H) as (A & B & C).
  exists (repeat 0%Z (w - List.length (str_of_int z)) ++ digits z). refine (conj _ (conj _ _)).
  - rewrite map_app. f_equal; [induction (w - List.length (str_of_int z))%nat as [|k IH]; cbn [repeat map]; [reflexivity|now rewrite <- IH]|]. unfold str_of_int. destruct (Z.ltb_spec z 0); [lia|reflexivity].
  - apply Forall_app. split; [|exact C]. apply Forall_forall. intros x Hx. apply repeat_spec in Hx. subst x. unfold is_digit. lia.
  - now rewrite value_of_zeros.
Qed.

Lemma pad_inj w a b : (0 <= a)%Z -> (0 <= b)%Z -> pad_int w a = pad_int w b -> a = b.
Proof.
  intros Ha Hb E. destruct (pad_digits w a Ha) as (da & Ea & Fa & Va). destruct (pad_digits w b Hb) as (db & Eb & Fb & Vb).
  assert (X : da = db).
  { pose proof (take_digits_map da [] Fa I) as Ta. pose proof (take_digits_map db [] Fb I) as Tb.
    rewrite <- Ea, E, Eb in Ta. congruence. }
  congruence.
Qed.

Lemma unsafe_underscore : ~ safe "_"%char.
Proof. intros (_ & _ & H & _). now apply H. Qed.
Lemma unsafe_slash : ~ safe "/"%char.
Proof. intros (_ & _ & _ & H). now apply H. Qed.

Lemma pad_no c w z : ~ safe c -> ~ In c (pad_int w z).
Proof.
  intros H Hin. unfold pad_int in Hin. apply in_app_or in Hin as [Hin|Hin]; [|now apply (int_no c z)].
  apply repeat_spec in Hin. subst c. apply H. exact (safe_digit 0 ltac:(unfold is_digit; lia)).
Qed.

Lemma chunk_tmp_words w s c i : chunk_tmp w s c i =
  join_on "_"%char [lit "subvol"; str_of_int s; lit "chunk"; pad_int w c; lit "tmp"; lit "mah"; lit "fits"; lit "rank";
                    str_of_int (Z.of_nat i) ++ lit ".dat"].
Proof. unfold chunk_tmp, chunk_base, tmp_name. cbn [join_on lit list_ascii_of_string app]. repeat rewrite <- app_assoc; cbn [app]; repeat rewrite <- app_assoc; reflexivity. Qed.

Lemma chunk_tmp_split w s c i : split_on "_"%char (chunk_tmp w s c i) =
  [lit "subvol"; str_of_int s; lit "chunk"; pad_int w c; lit "tmp"; lit "mah"; lit "fits"; lit "rank";
   str_of_int (Z.of_nat i) ++ lit ".dat"].
Proof.
  rewrite chunk_tmp_words. apply split_on_join; [discriminate|].
  repeat apply Forall_cons; try apply Forall_nil;
    try (cbn; intuition discriminate); try (apply int_no, unsafe_underscore); try (apply pad_no, unsafe_underscore).
  intros Hin. apply in_app_or in Hin as [Hin|Hin]; [|cbn in Hin; intuition discriminate].
  now apply (int_no _ _ unsafe_underscore) in Hin.
Qed.

Lemma chunk_rm w s c : rm_prefix (chunk_tmp w s c 0) = chunk_name w s c ++ lit "_tmp_mah_fits_rank_".
Proof.
  unfold rm_prefix. rewrite chunk_tmp_split. unfold chunk_name. cbn [removelast join_on lit list_ascii_of_string app].
  repeat (rewrite <- app_assoc; cbn [app]). reflexivity.
Qed.
Lemma chunk_out_name w s c : chunk_out (chunk_tmp w s c 0) = chunk_name w s c ++ lit ".hdf5".
Proof.
  unfold chunk_out. rewrite chunk_tmp_split. unfold chunk_name. cbn [firstn join_on lit list_ascii_of_string app].
  repeat (rewrite <- app_assoc; cbn [app]). reflexivity.
Qed.
Lemma chunk_name_split w s c t : ~ In "_"%char t ->
  split_on "_"%char (chunk_name w s c ++ t) = [lit "subvol"; str_of_int s; lit "chunk"; pad_int w c ++ t].
Proof.
  intros Ht. replace (chunk_name w s c ++ t) with
    (join_on "_"%char [lit "subvol"; str_of_int s; lit "chunk"; pad_int w c ++ t]).
  - apply split_on_join; [discriminate|].
    repeat apply Forall_cons; try apply Forall_nil; try (cbn; intuition discriminate); try (apply int_no, unsafe_underscore).
    rewrite in_app_iff. intros [H|H]; [now apply (pad_no _ _ _ unsafe_underscore) in H|contradiction].
  - unfold chunk_name. cbn [join_on lit list_ascii_of_string app]. repeat (rewrite <- app_assoc; cbn [app]). reflexivity.
Qed.
Lemma chunk_name_inj w s c s' c' t : ~ In "_"%char t -> (0 <= c)%Z -> (0 <= c')%Z ->
  chunk_name w s c ++ t = chunk_name w s' c' ++ t -> s = s' /\ c = c'.
Proof.
  intros Ht Hc Hc' E. apply (f_equal (split_on "_"%char)) in E. rewrite !chunk_name_split in E by exact Ht.
  injection E as E1 E2. apply app_inv_tail in E2. split; [now apply str_of_int_inj|now apply (pad_inj w)].
Qed.
Lemma chunk_tmp_inj w s c i j : chunk_tmp w s c i = chunk_tmp w s c j -> i = j.
Proof. unfold chunk_tmp. intros E. apply app_inv_head in E. apply app_inv_head in E. now apply tmp_name_inj. Qed.
Lemma chunk_glob w s c i : glob (chunk_name w s c ++ lit "_tmp_mah_fits_rank_") (lit ".dat") (chunk_tmp w s c i) = true.
Proof.
  apply glob_spec. exists (str_of_int (Z.of_nat i)). split; [|apply int_no, unsafe_slash].
  unfold chunk_tmp, chunk_base, chunk_name, tmp_name. cbn [lit list_ascii_of_string app]. repeat (rewrite <- app_assoc; cbn [app]). reflexivity.
Qed.
Lemma hdf5_not_temp pre s : ~ temp_file pre (s ++ lit ".hdf5").
Proof.
  intros (mid & E & _). apply (f_equal (@rev ascii)) in E. rewrite !rev_app_distr in E. discriminate.
Qed.

(** ** A list of jobs and barriers *)

Section Jobs.
  Context (eager : nat -> nat -> msg -> bool) (n : nat) (Hn : (0 < n)%nat).
  Context (fitter : list xr -> list xr -> res FitResult) (load : Z -> Z -> res (list xr * list (list xr)))
    (outdir : str) (w : nat).

  Definition item := option (Z * Z).
  Definition run_item (i : nat) (it : item) (k : prog unit) : prog unit :=
    match it with Some job => chunk_job fitter load outdir w n i job k | None => Barrier k end.
  Definition run_items (i : nat) (l : list item) (k : prog unit) : prog unit := fold_right (run_item i) k l.

  Definition items_of (chunks subvols : list Z) : list item :=
    flat_map (fun s => map (fun c => Some (s, c)) chunks ++ [None]) subvols ++ [None].

  Lemma run_items_app i l l' k : run_items i (l ++ l') k = run_items i l (run_items i l' k).
  Proof. unfold run_items. apply fold_right_app. Qed.

  Lemma subvol_jobs_items i chunks subvols :
    subvol_jobs (fun s c => chunk_job fitter load outdir w n i (s, c)) chunks subvols (Barrier (Exit (Ok tt))) =
    run_items i (items_of chunks subvols) (Exit (Ok tt)).
  Proof.
    unfold items_of. rewrite run_items_app. cbn [run_items fold_right run_item].
    induction subvols as [|s l IH]; cbn [flat_map subvol_jobs]; [reflexivity|].
    rewrite run_items_app, <- IH. rewrite run_items_app. cbn [run_items fold_right run_item].
    clear IH. generalize (Barrier (subvol_jobs (fun s c => chunk_job fitter load outdir w n i (s, c)) chunks l (Barrier (Exit (Ok tt))))).
    intros K. induction chunks as [|c chunks IH]; [reflexivity|].
    cbn [map fold_right run_item chunk_jobs]. now rewrite IH.
  Qed.

  Lemma items_jobs chunks subvols s c : In (Some (s, c)) (items_of chunks subvols) <-> In s subvols /\ In c chunks.
  Proof.
    unfold items_of. rewrite in_app_iff, in_flat_map. split.
    - intros [(s' & Hs & H)|[H|[]]]; [|discriminate]. apply in_app_or in H as [H|[H|[]]]; [|discriminate].
      apply in_map_iff in H as (c' & E & Hc). injection E as <- <-. now split.
    - intros [Hs Hc]. left. exists s. split; [exact Hs|]. apply in_or_app. left. apply in_map_iff. now exists c.
  Qed.

  (** Footprints *)
  Fixpoint item_phases (l : list item) : list phase :=
    match l with
    | [] => []
    | Some (s, c) :: l' => idle :: idle :: own outdir (chunk_tmp w s c) :: root_only :: item_phases l'
    | None :: l' => idle :: item_phases l'
    end.
  Lemma item_exclusive l : Forall exclusive (item_phases l).
  Proof.
    induction l as [|[[s c]|] l IH]; cbn [item_phases]; repeat constructor; auto using exclusive_idle, exclusive_root.
    apply exclusive_own, chunk_tmp_inj.
  Qed.
  Lemma items_within i l : within (foot (item_phases l) i) (run_items i l (Exit (Ok tt))).
  Proof.
    induction l as [|[[s c]|] l IH]; cbn [item_phases foot map run_items fold_right run_item]; [exact I| |exact IH].
    unfold chunk_job. cbn [within tl]. apply within_load. intros tarr mahs. apply within_reduce. intros _. cbn [within tl].
    apply within_write_rank; [reflexivity|]. cbn [within tl]. destruct (Nat.eqb_spec i 0) as [->|N]; [|exact IH].
    apply within_collate; [intros q; reflexivity|exact IH].
  Qed.
  Lemma items_race_free l f : race_free n (start (fun i => run_items i l (Exit (Ok tt))) f).
  Proof. apply (phases_race_free n _ (item_phases l)); [apply item_exclusive|]. intros i Hi. apply items_within. Qed.

  (** Good jobs *)
  Definition table_of (frs : list FitResult) (out : str) : hdf :=
    match fst (write_collated_data (fun _ => None) out (mkTable 8 (map out_fields frs))) out with Some h => h | None => [] end.
  Definition good (frs : Z -> Z -> list FitResult) (s c : Z) : Prop :=
    exists tarr mahs, load s c = Ok (tarr, mahs) /\ (2 * n <= List.length mahs)%nat /\
      Forall2 (fun m fr => fitter tarr m = Ok fr) mahs (frs s c).
  Definition job_out (s c : Z) : str := chunk_name w s c ++ lit ".hdf5".
  Definition after (frs : Z -> Z -> list FitResult) (f : tree) (it : item) : tree :=
    match it with
    | Some (s, c) => collated outdir (chunk_tmp w s c) f (job_out s c) (table_of (frs s c) (job_out s c))
    | None => f
    end.

  Lemma table_of_spec frs out : fit_columns frs (table_of frs out) /\
    exists fs', write_collated_data (fun _ => None) out (mkTable 8 (map out_fields frs)) = (fs', Ok tt) /\ fs' out = Some (table_of frs out).
  Proof.
    destruct (fits_table out frs) as (fs' & h & EW & EO & HC). unfold table_of. rewrite EW. cbn [fst]. rewrite EO.
    split; [exact HC|]. now exists fs'.
  Qed.

  (** Up to the collation. *)
  Lemma job_loaded s c tarr mahs (K : nat -> prog unit) ps f : load s c = Ok (tarr, mahs) ->
    at_ n ps (fun i => chunk_job fitter load outdir w n i (s, c) (K i)) ->
    exists ps', at_ n ps' (fun i =>
      write_rank_file (outdir, chunk_tmp w s c i) HEADER (fit_line (fitter tarr)) (nth i (parts n mahs) [])
        (Barrier (if Nat.eqb i 0 then collate outdir (chunk_tmp w s c) (job_out s c) n (Barrier (K i)) else Barrier (K i)))) /\
      star eager n (mkState ps quiet f) (mkState ps' quiet f).
  Proof.
    intros EL HW.
    set (R := fun i => write_rank_file (outdir, chunk_tmp w s c i) HEADER (fit_line (fitter tarr)) (nth i (parts n mahs) [])
        (Barrier (if Nat.eqb i 0 then collate outdir (chunk_tmp w s c) (job_out s c) n (Barrier (K i)) else Barrier (K i)))).
    destruct (barrier_star eager n (fun i => load_mahs_per_rank (load s c) i n (fun tarr mahs_for_rank =>
      reduce op_sum i n (MInt (Z.of_nat (List.length mahs_for_rank))) (fun _ =>
      Barrier (write_rank_file (outdir, chunk_tmp w s c i) HEADER (fit_line (fitter tarr)) mahs_for_rank
        (Barrier (if Nat.eqb i 0 then collate outdir (chunk_tmp w s c) (job_out s c) n (Barrier (K i)) else Barrier (K i)))))))
      ps quiet f Hn) as (ps1 & A1 & S1).
    { intros i Hi. rewrite (HW i Hi). unfold chunk_job. rewrite chunk_out_name. reflexivity. }
    destruct (load_star eager n (fun _ => load s c) tarr mahs (parts n mahs) _ ps1 f Hn EL (parts_split n mahs Hn) A1)
      as (ps2 & A2 & S2).
    destruct (reduce_star eager n op_sum (fun i => MInt (Z.of_nat (List.length (nth i (parts n mahs) [])))) (fun i _ => Barrier (R i)) ps2 f Hn A2)
      as (ps3 & A3 & S3).
    destruct (barrier_star eager n R ps3 quiet f Hn A3) as (ps4 & A4 & S4).
    exists ps4. split; [exact A4|]. eapply star_trans; [exact S1|]. eapply star_trans; [exact S2|]. eapply star_trans; [exact S3|exact S4].
  Qed.

  Lemma job_star frs s c (K : nat -> prog unit) ps f : good frs s c ->
    at_ n ps (fun i => chunk_job fitter load outdir w n i (s, c) (K i)) ->
    exists ps', at_ n ps' K /\ star eager n (mkState ps quiet f) (mkState ps' quiet (after frs f (Some (s, c)))).
  Proof.
    intros (tarr & mahs & EL & H2 & HF) HW.
    destruct (job_loaded s c tarr mahs K ps f EL HW) as (ps1 & A1 & S1).
    destruct (table_of_spec (frs s c) (job_out s c)) as (_ & fs' & EW & EO).
    destruct (fit_phase eager n Hn outdir (chunk_tmp w s c) (chunk_tmp_inj w s c) HEADER comment_HEADER 8 ltac:(lia)
      (map (map out_fields) (parts n (frs s c))) ltac:(now rewrite map_length, parts_length)
      ltac:(apply Forall_concat_inv; rewrite rss_concat by exact Hn; apply rows_ok)
      (fun _ => fit_line (fitter tarr)) (fun i => nth i (parts n mahs) []) (job_out s c) (table_of (frs s c) (job_out s c)) fs'
      (fun i => Barrier (K i)) ps1 f) as (ps2 & A2 & S2).
    - apply Forall_map. apply (Forall_impl _ (P := fun p : list FitResult => (2 <= List.length p)%nat)).
      + intros p Hp. now rewrite map_length.
      + apply parts_two; [exact Hn|]. now rewrite <- (Forall2_length _ _ _ HF).
    - rewrite chunk_rm. apply chunk_glob.
    - intros i Hi. rewrite nth_map_map. apply (parts_nth _ n _ _ i Hi) in HF. apply fit_lines in HF.
      clear - HF. induction HF; cbn [map]; constructor; auto.
    - now rewrite rss_concat.
    - exact EO.
    - exact A1.
    - destruct (barrier_star eager n K ps2 quiet (after frs f (Some (s, c))) Hn A2) as (ps3 & A3 & S3).
      exists ps3. split; [exact A3|]. eapply star_trans; [exact S1|]. eapply star_trans; [exact S2|exact S3].
  Qed.

  Lemma items_star frs l : forall (K : nat -> prog unit) ps f, (forall s c, In (Some (s, c)) l -> good frs s c) ->
    at_ n ps (fun i => run_items i l (K i)) ->
    exists ps', at_ n ps' K /\ star eager n (mkState ps quiet f) (mkState ps' quiet (fold_left (after frs) l f)).
  Proof.
    induction l as [|it l IH]; intros K ps f HG HW; cbn [fold_left].
    - exists ps. split; [exact HW|apply star_refl].
    - assert (X : exists ps1, at_ n ps1 (fun i => run_items i l (K i)) /\ star eager n (mkState ps quiet f) (mkState ps1 quiet (after frs f it))).
      { destruct it as [[s c]|].
        - apply job_star; [apply HG; now left|exact HW].
        - apply barrier_star; [exact Hn|exact HW]. }
      destruct X as (ps1 & A1 & S1).
      destruct (IH K ps1 (after frs f it)) as (ps2 & A2 & S2); [intros s c Hin; apply HG; now right|exact A1|].
      exists ps2. split; [exact A2|]. eapply star_trans; [exact S1|exact S2].
  Qed.

  (** What is on disk after the jobs. *)
  Definition nonneg (l : list item) : Prop := forall s c, In (Some (s, c)) l -> (0 <= c)%Z.
  Definition job_temp (s c : Z) (b : str) : Prop := temp_file (chunk_name w s c ++ lit "_tmp_mah_fits_rank_") b.

  Lemma after_at frs f s c d b : after frs f (Some (s, c)) (d, b) =
    if (eqb_str d outdir && glob (chunk_name w s c ++ lit "_tmp_mah_fits_rank_") (lit ".dat") b)%bool then None
    else if eqb_path (d, b) (outdir, job_out s c) then Some (H5 (table_of (frs s c) (job_out s c))) else f (d, b).
  Proof. cbn [after]. unfold collated, removed. rewrite chunk_rm. reflexivity. Qed.

  Lemma jobs_disk frs l : nonneg l -> forall f,
    let g := fold_left (after frs) l f in
    (forall s c, In (Some (s, c)) l -> g (outdir, job_out s c) = Some (H5 (table_of (frs s c) (job_out s c)))) /\
    (forall s c b, In (Some (s, c)) l -> job_temp s c b -> g (outdir, b) = None) /\
    (forall d b, (forall s c, In (Some (s, c)) l -> (d, b) <> (outdir, job_out s c) /\ ~ (d = outdir /\ job_temp s c b)) -> g (d, b) = f (d, b)).
  Proof.
    intros HP f. cbv zeta. revert HP. pattern l. apply rev_ind; clear l.
    - intros _. cbn [fold_left]. refine (conj _ (conj _ _)); [intros s c []|intros s c b []|reflexivity].
    - intros it l IH HP. destruct IH as (I1 & I2 & I3); [intros s c Hin; apply (HP s c), in_or_app; now left|].
      rewrite fold_left_app. cbn [fold_left]. set (g := fold_left (after frs) l f) in *.
      assert (EO : eqb_str outdir outdir = true) by (now apply eqb_str_eq).
      destruct it as [[s0 c0]|].
      + refine (conj _ (conj _ _)).
        * intros s c Hin. rewrite after_at. rewrite EO. cbn [andb].
          destruct (glob (chunk_name w s0 c0 ++ lit "_tmp_mah_fits_rank_") (lit ".dat") (job_out s c)) eqn:EG.
          -- apply glob_spec in EG. now apply hdf5_not_temp in EG.
          -- destruct (eqb_path (outdir, job_out s c) (outdir, job_out s0 c0)) eqn:EP.
             ++ apply eqb_path_eq in EP. apply (f_equal snd) in EP. cbn [snd] in EP. unfold job_out in EP.
                apply chunk_name_inj in EP as [-> ->]; [reflexivity| | |].
                ** cbn. intuition discriminate.
                ** now apply (HP s c).
                ** apply (HP s0 c0), in_or_app. right. now left.
             ++ apply in_app_or in Hin as [Hin|[E|[]]]; [now apply I1|]. injection E as -> ->. now rewrite eqb_path_refl in EP.
        * intros s c b Hin Hb. rewrite after_at, EO. cbn [andb].
          destruct (glob (chunk_name w s0 c0 ++ lit "_tmp_mah_fits_rank_") (lit ".dat") b) eqn:EG; [reflexivity|].
          destruct (eqb_path (outdir, b) (outdir, job_out s0 c0)) eqn:EP.
          -- apply eqb_path_eq in EP. apply (f_equal snd) in EP. cbn [snd] in EP. subst b. now apply hdf5_not_temp in Hb.
          -- apply in_app_or in Hin as [Hin|[E|[]]]; [now apply (I2 s c)|]. injection E as -> ->. apply glob_spec in Hb. congruence.
        * intros d b H. rewrite after_at.
          destruct (H s0 c0) as [N1 N2]; [apply in_or_app; right; now left|].
          destruct (eqb_str d outdir && glob (chunk_name w s0 c0 ++ lit "_tmp_mah_fits_rank_") (lit ".dat") b)%bool eqn:EG.
          { apply andb_prop in EG as [E1 E2]. apply eqb_str_eq in E1. apply glob_spec in E2. exfalso. apply N2. now split. }
          rewrite eqb_path_neq by exact N1. apply I3. intros s c Hin. apply H, in_or_app. now left.
      + refine (conj _ (conj _ _)); cbn [after].
        * intros s c Hin. apply in_app_or in Hin as [Hin|[E|[]]]; [now apply I1|discriminate].
        * intros s c b Hin. apply in_app_or in Hin as [Hin|[E|[]]]; [now apply I2|discriminate].
        * intros d b H. apply I3. intros s c Hin. apply H, in_or_app. now left.
  Qed.

  (** A chunk with too few halos. *)
  Lemma job_few frs s c (K : nat -> prog unit) tarr mahs ps f : load s c = Ok (tarr, mahs) -> (List.length mahs < 2 * n)%nat ->
    Forall2 (fun m fr => fitter tarr m = Ok fr) mahs frs ->
    at_ n ps (fun i => chunk_job fitter load outdir w n i (s, c) (K i)) ->
    exists e ps' f', at_ n ps' (fun i => if Nat.eqb i 0 then Exit (Err e) else Barrier (K i)) /\
      written outdir (chunk_tmp w s c) HEADER (map (map out_fields) (parts n frs)) f n f' /\
      star eager n (mkState ps quiet f) (mkState ps' quiet f').
  Proof.
    intros EL H2 HF HW. destruct (job_loaded s c tarr mahs K ps f EL HW) as (ps1 & A1 & S1).
    destruct (fit_phase_spoiled eager n Hn outdir (chunk_tmp w s c) (chunk_tmp_inj w s c) HEADER comment_HEADER 8 ltac:(lia)
      (map (map out_fields) (parts n frs)) ltac:(now rewrite map_length, parts_length)
      ltac:(apply Forall_concat_inv; rewrite rss_concat by exact Hn; apply rows_ok)
      (fun _ => fit_line (fitter tarr)) (fun i => nth i (parts n mahs) []) (job_out s c) (fun i => Barrier (K i)) ps1 f)
      as (e & ps2 & f2 & _ & A2 & W2 & S2).
    - assert (E : Exists (fun p => (List.length p <= 1)%nat) (parts n frs))
        by (apply parts_few; [exact Hn|now rewrite <- (Forall2_length _ _ _ HF)]).
      apply Exists_exists in E as (p & Hp & L). apply Exists_exists. exists (map out_fields p).
      split; [now apply in_map|]. now rewrite map_length.
    - intros i Hi. rewrite nth_map_map. apply (parts_nth _ n _ _ i Hi) in HF. apply fit_lines in HF.
      clear - HF. induction HF; cbn [map]; constructor; auto.
    - exact A1.
    - exists e, ps2, f2. refine (conj A2 (conj W2 _)). eapply star_trans; [exact S1|exact S2].
  Qed.

  Lemma items_finished frs l f : nonneg l -> (forall s c, In (Some (s, c)) l -> good frs s c) ->
    every_run eager n (start (fun i => run_items i l (Exit (Ok tt))) f) (fun st =>
      all_return n st (fun _ => tt) /\ no_messages st /\ fs st = fold_left (after frs) l f).
  Proof.
    intros HP HG. destruct (items_star frs l (fun _ => Exit (Ok tt)) (fun i => run_items i l (Exit (Ok tt))) f HG (fun _ _ => eq_refl))
      as (ps & A1 & S1).
    apply (every_run_like_one _ _ _ (mkState ps quiet (fold_left (after frs) l f))).
    - apply items_race_free.
    - exact S1.
    - apply stopped. intros i Hi. eexists. exact (A1 i Hi).
    - refine (conj _ (conj (fun _ _ _ => eq_refl) eq_refl)). exact A1.
  Qed.

  Lemma items_few frs l s c l' f frs' : (forall s c, In (Some (s, c)) l -> good frs s c) ->
    (exists tarr mahs, load s c = Ok (tarr, mahs) /\ (List.length mahs < 2 * n)%nat /\
      Forall2 (fun m fr => fitter tarr m = Ok fr) mahs frs') ->
    every_run eager n (start (fun i => run_items i (l ++ Some (s, c) :: l') (Exit (Ok tt))) f) (fun st =>
      not_collated n outdir (chunk_tmp w s c) HEADER (fun fr => get_outline fr None) (fold_left (after frs) l f) frs' st /\
      forall i r, (i < n)%nat -> procs st i <> Exit (Ok r)).
  Proof.
    intros HG (tarr & mahs & EL & H2 & HF).
    destruct (items_star frs l (fun i => run_items i (Some (s, c) :: l') (Exit (Ok tt)))
      (fun i => run_items i (l ++ Some (s, c) :: l') (Exit (Ok tt))) f HG (fun i _ => run_items_app i l _ _)) as (ps & A1 & S1).
    destruct (job_few frs' s c (fun i => run_items i l' (Exit (Ok tt))) tarr mahs ps (fold_left (after frs) l f) EL H2 HF A1)
      as (e & ps2 & f2 & A2 & [W1 W2] & S2).
    apply (every_run_like_one _ _ _ (mkState ps2 quiet f2)).
    - apply items_race_free.
    - eapply star_trans; [exact S1|exact S2].
    - apply jammed; cbn [procs].
      + exists 0%nat, (Err e). split; [exact Hn|exact (A2 0%nat Hn)].
      + intros i Hi. rewrite (A2 i Hi). destruct (Nat.eqb i 0); [left|right]; eexists; reflexivity.
    - split.
      + refine (conj _ (conj _ _)); cbn [procs fs].
        * exists e. exact (A2 0%nat Hn).
        * exists (parts n frs'). refine (conj _ (conj _ _)); [now apply parts_length|now apply parts_concat|].
          intros i Hi. rewrite (W1 i Hi). unfold rank_text. rewrite nth_map_map, map_map. reflexivity.
        * intros q Hq. now apply W2.
      + intros i r Hi. cbn [procs]. rewrite (A2 i Hi). destruct (Nat.eqb i 0); discriminate.
  Qed.

  Lemma items_failed frs l s c l' f m e : (forall s c, In (Some (s, c)) l -> good frs s c) ->
    (exists tarr mahs, load s c = Ok (tarr, mahs) /\ In m mahs /\ fitter tarr m = Err e) ->
    every_run eager n (start (fun i => run_items i (l ++ Some (s, c) :: l') (Exit (Ok tt))) f)
      (failed n outdir (chunk_tmp w s c) (fold_left (after frs) l f)).
  Proof.
    intros HG (tarr & mahs & EL & Hin & E).
    destruct (items_star frs l (fun i => run_items i (Some (s, c) :: l') (Exit (Ok tt)))
      (fun i => run_items i (l ++ Some (s, c) :: l') (Exit (Ok tt))) f HG (fun i _ => run_items_app i l _ _)) as (ps & A1 & S1).
    destruct (job_loaded s c tarr mahs (fun i => run_items i l' (Exit (Ok tt))) ps (fold_left (after frs) l f) EL A1) as (ps1 & A2 & S2).
    destruct (fit_phase_fail eager n outdir (chunk_tmp w s c) HEADER (fun _ => fit_line (fitter tarr)) (fun i => nth i (parts n mahs) [])
      (fun i => if Nat.eqb i 0 then collate outdir (chunk_tmp w s c) (job_out s c) n (Barrier (run_items i l' (Exit (Ok tt))))
                else Barrier (run_items i l' (Exit (Ok tt)))) ps1 quiet (fold_left (after frs) l f)) as (ps' & f' & (i0 & e0 & Hi0 & E0) & A3 & W3 & S3).
    - rewrite <- (parts_concat n mahs Hn) in Hin. apply in_concat in Hin as (p & Hp & Hin).
      apply (In_nth _ _ []) in Hp as (i & Hi & Ep). rewrite parts_length in Hi by exact Hn. subst p.
      exists i, m, e. refine (conj Hi (conj Hin _)). unfold fit_line. now rewrite E.
    - exact A2.
    - apply (every_run_like_one _ _ _ (mkState ps' quiet f')).
      + apply items_race_free.
      + eapply star_trans; [exact S1|]. eapply star_trans; [exact S2|exact S3].
      + apply jammed; cbn [procs]; [now exists i0, (Err e0)|]. intros i Hi. destruct (A3 i Hi) as [(x & Y)|(k & Y)]; [left; now exists (Err x)|right; now exists k].
      + refine (conj _ (conj _ _)); cbn [procs fs].
        * now exists i0, e0.
        * intros i r Hi. destruct (A3 i Hi) as [(x & Y)|(k & Y)]; rewrite Y; discriminate.
        * exact W3.
  Qed.
End Jobs.

Lemma zrange_nonneg n c : In c (zrange 0 n) <-> (0 <= c < n)%Z.
Proof.
  unfold zrange. rewrite in_map_iff. split.
  - intros (k & <- & H). apply in_seq in H. lia.
  - intros H. exists (Z.to_nat c). split; [lia|]. apply in_seq. lia.
Qed.

(** ** Discovery *)

Section Discovery.
  Context (eager : nat -> nat -> msg -> bool) (n : nat) (Hn : (0 < n)%nat).
  Context (fitter : list xr -> list xr -> res FitResult) (load : Z -> Z -> res (list xr * list (list xr))) (outdir : str).

  Lemma discovery_stops_at w s tarr mahs main f : load s 0%Z = Ok (tarr, mahs) ->
    let tmp := chunk_tmp w s 0%Z in
    (forall i, main i = Barrier (load_mahs_per_rank (load s 0%Z) i n (fun tarr mahs_for_rank =>
      reduce op_sum i n (MInt (Z.of_nat (List.length mahs_for_rank))) (fun _ =>
      Barrier (Open (outdir, tmp i) (Exit (Err AttributeError) : prog unit)))))) ->
    every_run eager n (start main f) (fun st =>
      (forall i, (i < n)%nat -> procs st i = Exit (Err AttributeError)) /\
      (forall i, (i < n)%nat -> fs st (outdir, tmp i) = Some (Text [])) /\
      (forall q, (forall i, (i < n)%nat -> q <> (outdir, tmp i)) -> fs st q = f q)).
  Proof.
    intros EL tmp EM.
    set (W := fun i => Open (outdir, tmp i) (Exit (Err AttributeError) : prog unit)).
    assert (RF : race_free n (start main f)).
    { apply (phases_race_free n _ [idle; idle; own outdir tmp]).
      - repeat constructor; auto using exclusive_idle. apply exclusive_own, chunk_tmp_inj.
      - intros i Hi. cbn [start procs]. rewrite EM. cbn [within foot map tl]. apply within_load. intros x y. apply within_reduce. intros _.
        cbn [within tl W]. split; [reflexivity|exact I]. }
    destruct (barrier_star eager n (fun i => load_mahs_per_rank (load s 0%Z) i n (fun tarr mahs_for_rank =>
      reduce op_sum i n (MInt (Z.of_nat (List.length mahs_for_rank))) (fun _ => Barrier (W i)))) main quiet f Hn (fun i _ => EM i)) as (ps1 & A1 & S1).
    destruct (load_star eager n (fun _ => load s 0%Z) tarr mahs (parts n mahs) _ ps1 f Hn EL (parts_split n mahs Hn) A1)
      as (ps2 & A2 & S2).
    destruct (reduce_star eager n op_sum (fun i => MInt (Z.of_nat (List.length (nth i (parts n mahs) [])))) (fun i _ => Barrier (W i)) ps2 f Hn A2)
      as (ps3 & A3 & S3).
    destruct (barrier_star eager n W ps3 quiet f Hn A3) as (ps4 & A4 & S4).
    destruct (each_rank eager n W (fun _ => Exit (Err AttributeError))
      (fun m g => (forall i, (i < m)%nat -> g (outdir, tmp i) = Some (Text [])) /\
                  (forall q, (forall i, (i < m)%nat -> q <> (outdir, tmp i)) -> g q = f q)) ps4 quiet f A4) as (ps5 & f5 & A5 & W5 & S5).
    - split; [lia|reflexivity].
    - intros m g Hm [G1 G2]. exists (fset g (outdir, tmp m) (Some (Text []))). split.
      + eapply local_S; [reflexivity|constructor].
      + split.
        * intros i Hi. destruct (Nat.eq_dec i m) as [->|N]; [apply fset_same|]. rewrite fset_other; [apply G1; lia|].
          intros E. apply (f_equal snd) in E. cbn [snd] in E. now apply N, (chunk_tmp_inj w s 0%Z).
        * intros q Hq. rewrite fset_other by (apply Hq; lia). apply G2. intros i Hi. apply Hq. lia.
    - apply (every_run_like_one _ _ _ (mkState ps5 quiet f5)).
      + exact RF.
      + eapply star_trans; [exact S1|]. eapply star_trans; [exact S2|]. eapply star_trans; [exact S3|]. eapply star_trans; [exact S4|exact S5].
      + apply stopped. intros i Hi. eexists. exact (A5 i Hi).
      + destruct W5 as [W6 W7]. exact (conj A5 (conj W6 W7)).
  Qed.

  Lemma discovery_stops nchunks s l tarr mahs f : (0 < nchunks)%Z -> load s 0%Z = Ok (tarr, mahs) ->
    let tmp := chunk_tmp (List.length (str_of_int nchunks)) s 0%Z in
    every_run eager n (start (discovery_main fitter load outdir nchunks (s :: l) n) f) (fun st =>
      (forall i, (i < n)%nat -> procs st i = Exit (Err AttributeError)) /\
      (forall i, (i < n)%nat -> fs st (outdir, tmp i) = Some (Text [])) /\
      (forall q, (forall i, (i < n)%nat -> q <> (outdir, tmp i)) -> fs st q = f q)).
  Proof.
    intros Hc EL. apply (discovery_stops_at _ s tarr mahs _ f EL).
    assert (Ez : exists cs, zrange 0 nchunks = 0%Z :: cs).
    { unfold zrange. replace (Z.to_nat (nchunks - 0)) with (S (Z.to_nat (nchunks - 1))) by lia. eexists. reflexivity. }
    destruct Ez as (cs & Ez). intros i. unfold discovery_main. rewrite Ez. reflexivity.
  Qed.
End Discovery.
