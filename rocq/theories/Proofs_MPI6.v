(** Runs of the Bolshoi and galacticus scripts. *)

From Coq Require Import Reals Lra Lia List ZArith Bool Ascii String FunctionalExtensionality.
From Verif Require Import Model_Num Model_Base Model_Kernels Model_Adam Model_Fitter Model_Outline
  Model_Utils Model_Data Model_MPI Spec_Kernels Spec_Fitter Spec_Outline Spec_MPI Proofs_Fitter Proofs_Fitter2 Proofs_Outline
  Proofs_Outline2 Props_Outline Spec_Data Proofs_Data Proofs_MPI Proofs_MPI2 Proofs_MPI3 Proofs_MPI4 Proofs_MPI5.
Import ListNotations.
Local Open Scope list_scope.

(** ** Bolshoi *)

Lemma combine_firstn {X Y} (l : list X) (l' : list Y) k : firstn k (combine l l') = combine (firstn k l) (firstn k l').
Proof. revert l l'. induction k as [|k IH]; intros [|x l] [|y l']; cbn; try reflexivity. now rewrite IH. Qed.
Lemma combine_skipn {X Y} (l : list X) (l' : list Y) k : List.length l = List.length l' ->
  skipn k (combine l l') = combine (skipn k l) (skipn k l').
Proof. revert l l'. induction k as [|k IH]; intros [|x l] [|y l'] H; cbn in *; try reflexivity; try discriminate. apply IH. lia. Qed.
Lemma chop_combine {X Y} sizes : forall (l : list X) (l' : list Y) i, List.length l = List.length l' ->
  nth i (chop sizes (combine l l')) [] = combine (nth i (chop sizes l) []) (nth i (chop sizes l') []).
Proof.
  induction sizes as [|s sizes IH]; intros l l' i H; cbn [chop]; [destruct i; reflexivity|].
  destruct i as [|i]; cbn [nth].
  - apply combine_firstn.
  - rewrite combine_skipn by exact H. apply IH. rewrite !skipn_length. lia.
Qed.
Lemma parts_combine {X Y} n (l : list X) (l' : list Y) i : List.length l = List.length l' ->
  nth i (parts n (combine l l')) [] = combine (nth i (parts n l) []) (nth i (parts n l') []).
Proof.
  intros H. unfold parts. rewrite chop_combine by exact H.
  now rewrite combine_length, <- H, Nat.min_id.
Qed.

Lemma fit_lines_id {H} (fit : H -> res FitResult) ids hs frs :
  List.length ids = List.length hs -> Forall2 (fun h fr => fit h = Ok fr) hs frs ->
  Forall2 (fun h p => fit_line_id fit h = Ok (row_text (str_of_int (fst p) :: out_fields (snd p)))) (combine ids hs) (combine ids frs).
Proof.
  intros L F. revert ids L. induction F as [|h fr hs frs E _ IH]; intros [|i ids] L; cbn in L; try discriminate; cbn [combine]; constructor.
  - unfold fit_line_id. cbn [fst snd]. rewrite E. cbn [bind]. now rewrite outline_row_id.
  - apply IH. lia.
Qed.

Lemma combine_fst {X Y} (l : list X) (l' : list Y) : List.length l = List.length l' -> map fst (combine l l') = l.
Proof. revert l'. induction l as [|x l IH]; intros [|y l'] H; cbn in *; try reflexivity; try discriminate. rewrite IH; congruence. Qed.
Lemma combine_snd {X Y} (l : list X) (l' : list Y) : List.length l = List.length l' -> map snd (combine l l') = l'.
Proof. revert l'. induction l as [|x l IH]; intros [|y l'] H; cbn in *; try reflexivity; try discriminate. rewrite IH; congruence. Qed.

(** The script with any target table [tgt] written by rank 0. *)
Definition bpl_run (tgt : hdf) (fitter : list xr -> res FitResult) (outdir : str) (halo_ids : list Z)
  (mahs : list (list xr)) (nranks rank : nat) : prog unit :=
  let rest :=
    lift (array_split (seq 0 (List.length halo_ids)) nranks) (fun splits =>
    lift (index splits rank) (fun indx =>
    lift (take halo_ids indx) (fun halo_ids_for_rank =>
    lift (take mahs indx) (fun mahs_for_rank =>
    write_rank_file (outdir, tmp_name rank) HEADER_HALO_ID (fit_line_id fitter)
      (combine halo_ids_for_rank mahs_for_rank) (
    Barrier (
    if Nat.eqb rank 0
    then collate outdir tmp_name (lit "diffmah_fits.hdf5") nranks (Exit (Ok tt))
    else Exit (Ok tt))))))) in
  if Nat.eqb rank 0
  then let p := (outdir, lit "bpl_mpeak_histories.hdf5") in Create p (put_all p tgt rest)
  else rest.
Definition bpl_target (ids : list Z) (mahs : list (list xr)) (times : list xr) : hdf :=
  [(lit "halo_id", IntCol ids); (lit "mpeak_history", FloatCol (List.concat mahs)); (lit "bpl_t_table", FloatCol times)].
Lemma bpl_main_run fitter outdir ids mahs times : bpl_main fitter outdir ids mahs times =
  bpl_run (bpl_target ids mahs times) fitter outdir ids mahs.
Proof. reflexivity. Qed.

Section BPL.
  Context (eager : nat -> nat -> msg -> bool) (n : nat) (Hn : (0 < n)%nat).
  Context (fitter : list xr -> res FitResult) (outdir : str) (ids : list Z) (mahs : list (list xr)) (tgt : hdf).
  Context (HI : List.length ids = List.length mahs).
  Let out := lit "diffmah_fits.hdf5".
  Let target := (outdir, lit "bpl_mpeak_histories.hdf5").
  Let main := bpl_run tgt fitter outdir ids mahs n.

  Lemma bpl_run_phases f : race_free n (start main f).
  Proof.
    apply (phases_race_free n _ [(fun i q => q = (outdir, tmp_name i) \/ (i = 0%nat /\ q = target)); root_only]).
    - repeat constructor; [|apply exclusive_root]. intros i j q N [->|[-> ->]] [E|[E1 E2]].
      + apply (f_equal snd) in E. cbn [snd] in E. apply tmp_name_inj in E. contradiction.
      + discriminate.
      + discriminate.
      + now subst.
    - intros i Hi. cbn [start procs]. unfold main, bpl_run. cbv zeta.
      assert (X : forall G, hd none G (outdir, tmp_name i) -> (i = 0%nat -> forall q, hd none (tl G) q) -> within G
        (lift (array_split (seq 0 (List.length ids)) n) (fun splits =>
          lift (index splits i) (fun indx => lift (take ids indx) (fun halo_ids_for_rank =>
          lift (take mahs indx) (fun mahs_for_rank =>
          write_rank_file (outdir, tmp_name i) HEADER_HALO_ID (fit_line_id fitter)
            (combine halo_ids_for_rank mahs_for_rank) (
          Barrier (if Nat.eqb i 0 then collate outdir tmp_name (lit "diffmah_fits.hdf5") n (Exit (Ok tt))
          else Exit (Ok tt))))))))).
      { intros G HG1 HG2. apply within_lift. intros ? _. apply within_lift. intros ? _. apply within_lift. intros ? _. apply within_lift. intros ? _.
        apply within_write_rank; [exact HG1|]. cbn [within]. destruct (Nat.eqb_spec i 0) as [E|N]; [|exact I].
        apply within_collate; [|exact I]. now apply HG2. }
      destruct (Nat.eqb_spec i 0) as [->|N].
      + assert (T : hd none (foot [(fun i q => q = (outdir, tmp_name i) \/ (i = 0%nat /\ q = target)); root_only] 0) target)
          by (cbn; right; now split).
        cbn [within]. split; [exact T|]. apply within_put_all; [exact T|]. apply X; [left; reflexivity|]. intros _ q. reflexivity.
      + apply X; [left; reflexivity|]. intros; contradiction.
  Qed.

  Lemma put_all_new {A} p h (k : prog A) f : f p = Some (H5 []) -> local (put_all p h k) f k (fset f p (Some (H5 h))).
  Proof. intros Hf. exact (put_all_local p h [] f k Hf). Qed.

  Lemma bpl_run_start f : exists ps, at_ n ps (fun i =>
      write_rank_file (outdir, tmp_name i) HEADER_HALO_ID (fit_line_id fitter) (nth i (parts n (combine ids mahs)) [])
        (Barrier (if Nat.eqb i 0 then collate outdir tmp_name out n (Exit (Ok tt)) else Exit (Ok tt)))) /\
    star eager n (start main f) (mkState ps quiet (fset f target (Some (H5 tgt)))).
  Proof.
    set (rest := fun i => write_rank_file (outdir, tmp_name i) HEADER_HALO_ID (fit_line_id fitter) (nth i (parts n (combine ids mahs)) [])
        (Barrier (if Nat.eqb i 0 then collate outdir tmp_name out n (Exit (Ok tt)) else Exit (Ok tt)))).
    destruct (root_phase eager n Hn (Create target (put_all target tgt (rest 0%nat))) (rest 0%nat) rest main quiet f
      (fset f target (Some (H5 tgt)))) as (ps & A1 & S1).
    - intros i Hi. unfold main, bpl_run. cbv zeta. rewrite parts_split by exact Hn. cbn [lift].
      destruct (take_parts ids n i Hi) as (indx & E1 & E2). destruct (take_parts mahs n i Hi) as (indx' & E1' & E2').
      rewrite HI, E1' in E1. injection E1 as ->. rewrite HI, E1'. cbn [lift]. rewrite E2. cbn [lift]. rewrite E2'. cbn [lift].
      unfold rest. destruct (Nat.eqb_spec i 0) as [->|]; rewrite parts_combine by exact HI; reflexivity.
    - eapply local_S; [reflexivity|]. pose proof (put_all_new target tgt (rest 0%nat) (fset f target (Some (H5 []))) (fset_same _ _ _)) as L.
      now rewrite fset_twice in L.
    - exists ps. split; [|exact S1]. intros i Hi. rewrite (A1 i Hi). destruct (Nat.eqb_spec i 0) as [->|]; reflexivity.
  Qed.

  Lemma bpl_run_finished frs f : (2 * n <= List.length mahs)%nat -> Forall2 (fun m fr => fitter m = Ok fr) mahs frs ->
    every_run eager n (start main f)
      (finished n outdir out (lit "tmp_mah_fits_rank_") (fset f target (Some (H5 tgt))) (fit_columns_with_ids ids frs)).
  Proof.
    intros H2 HF. pose proof (Forall2_length _ _ _ HF) as L.
    destruct (fits_table_ids out (combine ids frs)) as (fs' & h & EW & EO & HC).
    rewrite combine_fst, combine_snd in HC by congruence.
    destruct (bpl_run_start f) as (ps & A1 & S1). rewrite <- rm_prefix_tmp.
    apply (ends_finished eager n Hn _ (bpl_run_phases f) outdir tmp_name tmp_name_inj out HEADER_HALO_ID comment_HEADER_HALO_ID 9 ltac:(lia)
      (fit_line_id fitter) (combine ids mahs) (combine ids frs) (fun p => str_of_int (fst p) :: out_fields (snd p)) _ ps A1 S1 _ fs' h); auto.
    - now apply fit_lines_id.
    - apply rows_ok_ids.
    - rewrite rm_prefix_tmp. exact tmp_glob.
    - rewrite rm_prefix_tmp. now apply (not_temp _ _ "t"%char).
    - now rewrite combine_length, HI, Nat.min_id.
  Qed.

  Lemma bpl_run_few frs f : (List.length mahs < 2 * n)%nat -> Forall2 (fun m fr => fitter m = Ok fr) mahs frs ->
    every_run eager n (start main f)
      (fun s => not_collated n outdir tmp_name HEADER_HALO_ID (fun p => get_outline (snd p) (Some (fst p)))
                  (fset f target (Some (H5 tgt))) (combine ids frs) s /\
        forall i, (0 < i < n)%nat -> procs s i = Exit (Ok tt)).
  Proof.
    intros H2 HF. destruct (bpl_run_start f) as (ps & A1 & S1).
    apply (ends_few eager n Hn _ (bpl_run_phases f) outdir tmp_name tmp_name_inj out HEADER_HALO_ID comment_HEADER_HALO_ID 9 ltac:(lia)
      (fit_line_id fitter) (combine ids mahs) (combine ids frs) (fun p => str_of_int (fst p) :: out_fields (snd p)) _ ps A1 S1); auto.
    - now apply fit_lines_id.
    - apply rows_ok_ids.
    - now rewrite combine_length, HI, Nat.min_id.
  Qed.

  Lemma bpl_run_failed m e f : In m mahs -> fitter m = Err e ->
    every_run eager n (start main f) (failed n outdir tmp_name (fset f target (Some (H5 tgt)))).
  Proof.
    intros Hin E. destruct (bpl_run_start f) as (ps & A1 & S1).
    assert (Hin' : exists i, In (i, m) (combine ids mahs)).
    { rewrite <- (combine_snd ids mahs HI) in Hin. apply in_map_iff in Hin as ([i x] & Ex & Hin). cbn in Ex. subst x. now exists i. }
    destruct Hin' as (i & Hin').
    apply (ends_failed eager n Hn _ (bpl_run_phases f) outdir tmp_name out HEADER_HALO_ID
      (fit_line_id fitter) (combine ids mahs) _ ps A1 S1 (i, m) e Hin'). unfold fit_line_id. cbn [snd]. now rewrite E.
  Qed.
End BPL.

Section BPLMain.
  Context (eager : nat -> nat -> msg -> bool) (n : nat) (Hn : (0 < n)%nat).
  Context (fitter : list xr -> res FitResult) (outdir : str) (ids : list Z) (mahs : list (list xr)) (times : list xr).
  Context (HI : List.length ids = List.length mahs).
  Let target := (outdir, lit "bpl_mpeak_histories.hdf5").
  Let main := bpl_main fitter outdir ids mahs times n.

  Lemma bpl_phases f : race_free n (start main f).
  Proof. exact (bpl_run_phases n fitter outdir ids mahs (bpl_target ids mahs times) f). Qed.
  Lemma bpl_finished frs f : (2 * n <= List.length mahs)%nat -> Forall2 (fun m fr => fitter m = Ok fr) mahs frs ->
    every_run eager n (start main f)
      (finished n outdir (lit "diffmah_fits.hdf5") (lit "tmp_mah_fits_rank_")
        (fset f target (Some (H5 (bpl_target ids mahs times)))) (fit_columns_with_ids ids frs)).
  Proof. exact (bpl_run_finished eager n Hn fitter outdir ids mahs _ HI frs f). Qed.
  Lemma bpl_few frs f : (List.length mahs < 2 * n)%nat -> Forall2 (fun m fr => fitter m = Ok fr) mahs frs ->
    every_run eager n (start main f)
      (fun s => not_collated n outdir tmp_name HEADER_HALO_ID (fun p => get_outline (snd p) (Some (fst p)))
                  (fset f target (Some (H5 (bpl_target ids mahs times)))) (combine ids frs) s /\
        forall i, (0 < i < n)%nat -> procs s i = Exit (Ok tt)).
  Proof. exact (bpl_run_few eager n Hn fitter outdir ids mahs _ HI frs f). Qed.
  Lemma bpl_failed m e f : In m mahs -> fitter m = Err e ->
    every_run eager n (start main f) (failed n outdir tmp_name (fset f target (Some (H5 (bpl_target ids mahs times))))).
  Proof. exact (bpl_run_failed eager n Hn fitter outdir ids mahs _ HI m e f). Qed.
End BPLMain.

(** ** Galacticus *)

Lemma slice_seq a b L : (b <= L)%nat -> slice a b (seq 0 L) = seq a (b - a).
Proof.
  intros H. unfold slice.
  assert (E : skipn a (seq 0 L) = seq a (L - a)).
  { destruct (Nat.le_gt_cases a L) as [Ha|Ha].
    - replace L with (a + (L - a))%nat at 1 by lia. rewrite seq_app, skipn_app, seq_length, Nat.sub_diag.
      rewrite skipn_all2 by (rewrite seq_length; lia). reflexivity.
    - rewrite skipn_all2 by (rewrite seq_length; lia). now replace (L - a)%nat with 0%nat by lia. }
  rewrite E. destruct (Nat.le_gt_cases a b) as [Hb|Hb].
  - replace (L - a)%nat with ((b - a) + (L - b))%nat by lia. rewrite seq_app, firstn_app, seq_length, Nat.sub_diag.
    rewrite firstn_all2 by (rewrite seq_length; lia). cbn. apply app_nil_r.
  - replace (b - a)%nat with 0%nat by lia. reflexivity.
Qed.

Lemma sum_firstn sz : forall i, (i < List.length sz)%nat ->
  list_sum (firstn (i + 1) sz) = (list_sum (firstn i sz) + nth i sz 0)%nat.
Proof.
  induction sz as [|s sz IH]; intros [|i] Hi; cbn [List.length] in Hi; try lia; cbn [Nat.add firstn nth].
  - rewrite list_sum_cons. cbn. lia.
  - rewrite !list_sum_cons, IH by lia. lia.
Qed.

(** The section of a rank, cut out by its first and last index. *)
Lemma slice_parts {X} (l : list X) n i : (i < n)%nat -> (n <= List.length l)%nat -> exists indx a b,
  index (parts n (seq 0 (List.length l))) i = Ok indx /\ index indx 0 = Ok a /\
  index indx (List.length indx - 1) = Ok b /\ slice a (b + 1) l = nth i (parts n l) [].
Proof.
  intros Hi HL. assert (Hn : (0 < n)%nat) by lia.
  set (sz := section_sizes (List.length l) n). set (d := div_points 0 sz).
  assert (Ep : forall Y (l0 : list Y), List.length l0 = List.length l ->
    parts n l0 = map (fun i => slice (nth i d 0%nat) (nth (i + 1) d 0%nat) l0) (seq 0 n)).
  { intros Y l0 El. assert (X0 : forall a b : list (list Y), Ok a = Ok b -> a = b) by congruence. apply X0.
    rewrite <- (parts_split n l0 Hn). unfold array_split. rewrite El. destruct n; [lia|reflexivity]. }
  assert (En : forall Y (l0 : list Y), List.length l0 = List.length l ->
    nth_error (parts n l0) i = Some (slice (nth i d 0%nat) (nth (i + 1) d 0%nat) l0)).
  { intros Y l0 El. rewrite (Ep Y l0 El), nth_error_map.
    rewrite (nth_error_nth' _ 0%nat) by (rewrite seq_length; exact Hi). cbn. rewrite seq_nth by exact Hi. reflexivity. }
  assert (Lsz : List.length sz = n) by (now apply sizes_length).
  set (a := nth i d 0%nat). set (b := nth (i + 1) d 0%nat).
  assert (Hab : (a < b <= List.length l)%nat).
  { unfold a, b, d. rewrite !div_points_nth by lia. cbn [Nat.add].
    assert (E1 : list_sum (firstn (i + 1) sz) = (list_sum (firstn i sz) + nth i sz 0)%nat).
    { rewrite <- Lsz in Hi. apply sum_firstn. exact Hi. }
    assert (E2 : (list_sum (firstn (i + 1) sz) <= list_sum sz)%nat).
    { rewrite <- (firstn_skipn (i + 1) sz) at 2. rewrite list_sum_app. lia. }
    assert (E3 : (1 <= nth i sz 0)%nat).
    { assert (In (nth i sz 0%nat) sz) by (apply nth_In; lia). apply sizes_In in H.
      assert (1 <= List.length l / n)%nat by (apply Nat.div_le_lower_bound; lia). lia. }
    unfold sz in E2 at 2. rewrite sizes_sum in E2 by exact Hn. lia. }
  exists (seq a (b - a)), a, (b - 1)%nat. refine (conj _ (conj _ (conj _ _))).
  - unfold index. rewrite En by (now rewrite seq_length). fold a b. rewrite slice_seq by lia. reflexivity.
  - unfold index. rewrite (nth_error_nth' _ 0%nat) by (rewrite seq_length; lia). rewrite seq_nth by lia. f_equal. lia.
  - unfold index. rewrite seq_length, (nth_error_nth' _ 0%nat) by (rewrite seq_length; lia). rewrite seq_nth by lia. f_equal. lia.
  - symmetry. rewrite (nth_error_nth _ _ [] (En X l eq_refl)). fold a b. f_equal. lia.
Qed.

Lemma last_of_spec l x : last_of l = Ok x <-> hd_error (rev l) = Some x.
Proof. unfold last_of. destruct (rev l); cbn; split; congruence. Qed.

Lemma lasts_ok ts ls : Forall2 (fun t x => hd_error (rev t) = Some x) ts ls -> lasts ts = Ok ls.
Proof. induction 1 as [|t x ts ls E _ IH]; [reflexivity|]. cbn [lasts]. apply last_of_spec in E. rewrite E. cbn [bind]. rewrite IH. reflexivity. Qed.

Definition top (l : list xr) (y : xr) : Prop := In y l /\ forall x, In x l -> xle x y.

Lemma np_max_top l : l <> [] -> ~ In NaN l -> exists y, np_max l = Ok y /\ top l y.
Proof.
  intros N HN. destruct l as [|x l]; [contradiction|]. cbn [np_max]. eexists. split; [reflexivity|].
  assert (G : forall l acc pre, greatest pre acc -> greatest (pre ++ l) (fold_left xmax l acc)).
  { clear. induction l as [|x l IH]; intros acc pre G; cbn [fold_left]; [now rewrite app_nil_r|].
    replace (pre ++ x :: l) with ((pre ++ [x]) ++ l) by (rewrite <- app_assoc; reflexivity). apply IH. now apply greatest_snoc. }
  assert (G1 : greatest [x] x).
  { right. refine (conj _ (conj (or_introl eq_refl) _)).
    - intros [E|[]]. apply HN. now left.
    - intros y [<-|[]]. apply xle_refl. intros ->. apply HN. now left. }
  specialize (G l x [x] G1). cbn [app] in G. destruct G as [[HI _]|(_ & G2 & G3)]; [contradiction|]. now split.
Qed.

Lemma xltb_top x y : x <> NaN -> y <> NaN -> (Model_Num.xltb x y = true -> xle x y) /\ (Model_Num.xltb x y = false -> xle y x).
Proof.
  intros Nx Ny. destruct x as [a| | |], y as [b| | |]; try contradiction; cbn; split; intros H; try exact I; try discriminate; try lra.
  - unfold Rltb in H. destruct (Rlt_dec a b); [lra|discriminate].
  - unfold Rltb in H. destruct (Rlt_dec a b); [discriminate|lra].
Qed.

Lemma top_not_nan l y : ~ In NaN l -> top l y -> y <> NaN.
Proof. intros H [Hy _] ->. contradiction. Qed.

Lemma fold_op_max vs : forall ls pre y, top pre y -> ~ In NaN pre -> Forall (fun l => ~ In NaN l) ls ->
  Forall2 top ls vs ->
  exists z, fold_left op_max (map MNum vs) (MNum y) = MNum z /\ top (pre ++ List.concat ls) z.
Proof.
  induction vs as [|v vs IH]; intros ls pre y Ty Np HN F; inversion F as [|l v' ls' vs' Tv F' E1 E2]; subst; clear F; cbn [map fold_left List.concat].
  - exists y. now rewrite app_nil_r.
  - inversion HN as [|? ? Nl HN']; subst. rewrite app_assoc.
    assert (Ny : y <> NaN) by (exact (top_not_nan pre y Np Ty)). assert (Nv : v <> NaN) by (exact (top_not_nan l v Nl Tv)).
    destruct (xltb_top y v Ny Nv) as [L1 L2]. cbn [op_max].
    destruct (Model_Num.xltb y v); apply IH; auto; try (rewrite in_app_iff; tauto).
    + destruct Ty as [Iy My], Tv as [Iv Mv]. split; [apply in_or_app; now right|]. intros x Hx.
      apply in_app_or in Hx as [Hx|Hx]; [|now apply Mv]. apply (xle_trans _ y); [now apply My|now apply L1].
    + destruct Ty as [Iy My], Tv as [Iv Mv]. split; [apply in_or_app; now left|]. intros x Hx.
      apply in_app_or in Hx as [Hx|Hx]; [now apply My|]. apply (xle_trans _ v); [now apply Mv|now apply L2].
Qed.

Lemma top_unique l y z : ~ In NaN l -> top l y -> top l z -> y = z.
Proof.
  intros H [Iy My] [Iz Mz]. apply (greatest_unique l); right; auto.
Qed.

Lemma galacticus_fit_spec fitter dt T0 h fr : galacticus_fit_of fitter dt T0 h fr <-> galacticus_fit fitter dt T0 h = Ok fr.
Proof.
  destruct h as [t m]. unfold galacticus_fit_of, galacticus_fit, xlt. cbn [fst snd]. split.
  - intros (t_first & t_last & skip & E1 & E2 & E4 & E5).
    apply last_of_spec in E2. rewrite E2. cbn [bind].
    assert (E1' : index t 0 = Ok t_first) by (destruct t; cbn in *; congruence). rewrite E1'. cbn [bind].
    assert (Es : Model_Num.xltb (xsub t_last t_first) dt = skip)
      by (destruct (Model_Num.xltb (xsub t_last t_first) dt), skip; intuition congruence).
    rewrite Es. destruct E5 as [[E5 (m_last & E3 & E6)]|[E5 E6]].
    + rewrite E5. apply last_of_spec in E3. rewrite E3. exact E6.
    + destruct (Model_Num.xltb t_last T0); [congruence|exact E6].
  - destruct (last_of t) as [t_last|] eqn:E2; cbn [bind]; [|discriminate].
    destruct (index t 0) as [t_first|] eqn:E1; cbn [bind]; [|discriminate]. intros E.
    exists t_first, t_last, (Model_Num.xltb (xsub t_last t_first) dt).
    refine (conj _ (conj (proj1 (last_of_spec _ _) E2) (conj (conj (fun x => x) (fun x => x)) _))).
    + destruct t; cbn in *; congruence.
    + destruct (Model_Num.xltb t_last T0) eqn:EL.
      * left. split; [reflexivity|]. destruct (last_of (maximum_accumulate m)) as [m_last|] eqn:E3; cbn [bind] in E; [|discriminate].
        exists m_last. split; [now apply last_of_spec|exact E].
      * right. split; [discriminate|exact E].
Qed.

Lemma Forall2_map_l' {X Y Z} (R : Y -> Z -> Prop) (g : X -> Y) l l' : Forall2 (fun x z => R (g x) z) l l' -> Forall2 R (map g l) l'.
Proof. induction 1; cbn [map]; constructor; auto. Qed.

(** The script with [keep] applied to the halos of each rank before fitting. *)
Definition galacticus_run (keep : list (list xr * list xr) -> list (list xr * list xr))
  (fitter : list xr -> list xr -> bool -> res FitResult) (dt_fit_min : xr)
  (outdir outbn : str) (halos : list (list xr * list xr)) (nranks rank : nat) : prog unit :=
  lift (array_split (seq 0 (List.length halos)) nranks) (fun splits =>
  lift (index splits rank) (fun indx_for_rank =>
  lift (index indx_for_rank 0) (fun istart =>
  lift (index indx_for_rank (List.length indx_for_rank - 1)) (fun ilast =>
  let halos_for_rank := slice istart (ilast + 1) halos in
  Barrier (
  lift (let* ts := lasts (map fst halos_for_rank) in np_max ts) (fun t_max_for_rank =>
  allreduce op_max rank nranks (MNum t_max_for_rank) (fun m =>
  match m with
  | MNum T0 =>
      Barrier (Barrier (
      write_rank_file (outdir, tmp_name rank) HEADER
        (fit_line (galacticus_fit fitter dt_fit_min T0)) (keep halos_for_rank) (
      Barrier (
      if Nat.eqb rank 0 then collate outdir tmp_name outbn nranks (Exit (Ok tt))
      else Exit (Ok tt)))))
  | _ => Exit (Err TypeError)
  end))))))).
Lemma galacticus_main_run fitter dt outdir out halos : galacticus_main fitter dt outdir out halos =
  galacticus_run (fun l => l) fitter dt outdir out halos.
Proof. reflexivity. Qed.

Section Galacticus.
  Context (eager : nat -> nat -> msg -> bool) (n : nat) (Hn : (0 < n)%nat).
  Context (fitter : list xr -> list xr -> bool -> res FitResult) (dt : xr) (outdir out : str) (halos halos' : list (list xr * list xr)).
  Context (keep : list (list xr * list xr) -> list (list xr * list xr)).
  Context (HK : forall i, (i < n)%nat -> keep (nth i (parts n halos) []) = nth i (parts n halos') []).
  Let main := galacticus_run keep fitter dt outdir out halos n.

  Lemma galacticus_run_phases f : race_free n (start main f).
  Proof.
    apply (phases_race_free n _ [idle; idle; idle; own outdir tmp_name; root_only]).
    - repeat constructor; [apply exclusive_idle|apply exclusive_idle|apply exclusive_idle|apply exclusive_own, tmp_name_inj|apply exclusive_root].
    - intros i Hi. cbn [start procs]. unfold main, galacticus_run. do 4 (apply within_lift; intros ? _).
      cbn [within foot map tl]. apply within_lift. intros ? _. apply within_allreduce. intros [| | |T0]; try exact I.
      cbn [within tl]. apply within_write_rank; [reflexivity|]. cbn [within tl].
      destruct (Nat.eqb_spec i 0) as [->|N]; [|exact I]. apply within_collate; [|exact I]. intros q. reflexivity.
  Qed.

  Lemma galacticus_run_start ls T0 f : (n <= List.length halos)%nat ->
    Forall2 (fun h t => hd_error (rev (fst h)) = Some t) halos ls -> ~ In NaN ls -> top ls T0 ->
    exists ps, at_ n ps (fun i =>
      write_rank_file (outdir, tmp_name i) HEADER (fit_line (galacticus_fit fitter dt T0)) (nth i (parts n halos') [])
        (Barrier (if Nat.eqb i 0 then collate outdir tmp_name out n (Exit (Ok tt)) else Exit (Ok tt)))) /\
    star eager n (start main f) (mkState ps quiet f).
  Proof.
    intros HL HF HN HT.
    set (body := fun i (m : msg) => match m with
      | MNum T0 => Barrier (Barrier (write_rank_file (outdir, tmp_name i) HEADER (fit_line (galacticus_fit fitter dt T0)) (nth i (parts n halos') [])
        (Barrier (if Nat.eqb i 0 then collate outdir tmp_name out n (Exit (Ok tt)) else Exit (Ok tt)))))
      | _ => Exit (Err TypeError) end).
    assert (NL : forall i, (i < n)%nat -> ~ In NaN (nth i (parts n ls) [])).
    { intros i Hi Hin. apply HN. rewrite <- (parts_concat n ls Hn). apply in_concat. eexists. split; [|exact Hin].
      apply nth_In. now rewrite parts_length. }
    assert (HM : forall i, (i < n)%nat -> exists v, np_max (nth i (parts n ls) []) = Ok v /\ top (nth i (parts n ls) []) v).
    { intros i Hi. apply np_max_top; [|now apply NL]. intros E.
      assert (X : In (List.length (nth i (parts n ls) [])) (section_sizes (List.length ls) n)).
      { rewrite <- parts_sizes by exact Hn. apply in_map, nth_In. now rewrite parts_length. }
      rewrite E in X. cbn in X. apply sizes_In in X. rewrite <- (Forall2_length _ _ _ HF) in X.
      assert (1 <= List.length halos / n)%nat by (apply Nat.div_le_lower_bound; lia). lia. }
    set (v := fun i => match np_max (nth i (parts n ls) []) with Ok x => x | Err _ => NaN end).
    assert (HV : forall i, (i < n)%nat -> np_max (nth i (parts n ls) []) = Ok (v i) /\ top (nth i (parts n ls) []) (v i)).
    { intros i Hi. destruct (HM i Hi) as (x & Ex & Tx). unfold v. rewrite Ex. now split. }
    destruct (barrier_star eager n (fun i => allreduce op_max i n (MNum (v i)) (body i)) main quiet f Hn) as (ps1 & A1 & S1).
    { intros i Hi. unfold main, galacticus_run. rewrite parts_split by exact Hn. cbn [lift].
      destruct (slice_parts halos n i Hi HL) as (indx & a & b & E1 & E2 & E3 & E4).
      rewrite E1. cbn [lift]. rewrite E2. cbn [lift]. rewrite E3. cbn [lift]. rewrite E4.
      assert (EL : lasts (map fst (nth i (parts n halos) [])) = Ok (nth i (parts n ls) [])).
      { apply lasts_ok. apply Forall2_map_l'. now apply (parts_nth (fun h t => hd_error (rev (fst h)) = Some t)). }
      rewrite EL. cbn [bind]. rewrite (proj1 (HV i Hi)). rewrite HK by exact Hi. reflexivity. }
    destruct (allreduce_star eager n op_max (fun i => MNum (v i)) body ps1 f Hn A1) as (ps2 & A2 & S2).
    assert (EV : fold_left op_max (map (fun i => MNum (v i)) (seq 1 (n - 1))) (MNum (v 0%nat)) = MNum T0).
    { destruct (parts n ls) as [|p0 ps0] eqn:EP; [pose proof (parts_length n ls Hn) as X; rewrite EP in X; cbn in X; lia|].
      assert (L0 : List.length ps0 = (n - 1)%nat) by (pose proof (parts_length n ls Hn) as X; rewrite EP in X; cbn in X; lia).
      destruct (fold_op_max (map v (seq 1 (n - 1))) ps0 p0 (v 0%nat)) as (z & Ez & Tz).
      - exact (proj2 (HV 0%nat Hn)).
      - exact (NL 0%nat Hn).
      - rewrite Forall_forall. intros p Hp. apply (In_nth _ _ []) in Hp as (i & Hi & <-). apply (NL (S i)). lia.
      - rewrite <- L0. assert (G : forall i, (i < List.length ps0)%nat -> top (nth i ps0 []) (v (S i))) by (intros i Hi; apply (HV (S i)); lia).
        clear - G. revert G. generalize v. clear v. intros v.
        assert (K : forall m l, (forall i, (i < List.length l)%nat -> top (nth i l []) (v (m + i)%nat)) -> Forall2 top l (map v (seq m (List.length l)))).
        { intros m l. revert m. induction l as [|p l IH]; intros m G; cbn [List.length seq map]; constructor.
          - specialize (G 0%nat ltac:(cbn; lia)). cbn in G. now rewrite Nat.add_0_r in G.
          - apply IH. intros i Hi. specialize (G (S i) ltac:(cbn; lia)). cbn [nth] in G. now rewrite Nat.add_succ_r in G. }
        intros G. apply K. exact G.
      - rewrite map_map in Ez. rewrite Ez. f_equal. apply (top_unique ls); auto.
        replace ls with (p0 ++ List.concat ps0); [exact Tz|]. rewrite <- (parts_concat n ls Hn), EP. reflexivity. }
    rewrite EV in A2. unfold body in A2.
    destruct (barrier_star eager n _ ps2 quiet f Hn A2) as (ps3 & A3 & S3).
    destruct (barrier_star eager n _ ps3 quiet f Hn A3) as (ps4 & A4 & S4).
    exists ps4. split; [exact A4|]. eapply star_trans; [exact S1|]. eapply star_trans; [exact S2|]. eapply star_trans; [exact S3|exact S4].
  Qed.

  Lemma galacticus_run_finished ls T0 frs f : (n <= List.length halos)%nat -> (2 * n <= List.length halos')%nat ->
    Forall2 (fun h t => hd_error (rev (fst h)) = Some t) halos ls -> ~ In NaN ls -> top ls T0 ->
    Forall2 (galacticus_fit_of fitter dt T0) halos' frs -> ~ temp_file (lit "tmp_mah_fits_rank_") out ->
    every_run eager n (start main f)
      (finished n outdir out (lit "tmp_mah_fits_rank_") f (fit_columns frs)).
  Proof.
    intros H1 H2 HF HN HT HG HO. destruct (fits_table out frs) as (fs' & h & EW & EO & HC).
    destruct (galacticus_run_start ls T0 f H1 HF HN HT) as (ps & A1 & S1).
    rewrite <- rm_prefix_tmp.
    apply (ends_finished eager n Hn _ (galacticus_run_phases f) outdir tmp_name tmp_name_inj out HEADER comment_HEADER 8 ltac:(lia)
      (fit_line (galacticus_fit fitter dt T0)) halos' frs out_fields f ps A1 S1 _ fs' h); auto.
    - apply fit_lines. clear - HG. induction HG; constructor; auto. now apply galacticus_fit_spec.
    - apply rows_ok.
    - rewrite rm_prefix_tmp. exact tmp_glob.
  Qed.

  Lemma galacticus_run_few ls T0 frs f : (n <= List.length halos)%nat -> (List.length halos' < 2 * n)%nat ->
    Forall2 (fun h t => hd_error (rev (fst h)) = Some t) halos ls -> ~ In NaN ls -> top ls T0 ->
    Forall2 (galacticus_fit_of fitter dt T0) halos' frs ->
    every_run eager n (start main f)
      (fun s => not_collated n outdir tmp_name HEADER (fun fr => get_outline fr None) f frs s /\
        forall i, (0 < i < n)%nat -> procs s i = Exit (Ok tt)).
  Proof.
    intros H1 H2 HF HN HT HG. destruct (galacticus_run_start ls T0 f H1 HF HN HT) as (ps & A1 & S1).
    apply (ends_few eager n Hn _ (galacticus_run_phases f) outdir tmp_name tmp_name_inj out HEADER comment_HEADER 8 ltac:(lia)
      (fit_line (galacticus_fit fitter dt T0)) halos' frs out_fields f ps A1 S1); auto.
    - apply fit_lines. clear - HG. induction HG; constructor; auto. now apply galacticus_fit_spec.
    - apply rows_ok.
  Qed.

  Lemma galacticus_run_failed ls T0 h f : (n <= List.length halos)%nat ->
    Forall2 (fun h t => hd_error (rev (fst h)) = Some t) halos ls -> ~ In NaN ls -> top ls T0 ->
    In h halos' -> (forall fr, ~ galacticus_fit_of fitter dt T0 h fr) ->
    every_run eager n (start main f) (failed n outdir tmp_name f).
  Proof.
    intros H1 HF HN HT Hin HG. destruct (galacticus_run_start ls T0 f H1 HF HN HT) as (ps & A1 & S1).
    destruct (galacticus_fit fitter dt T0 h) as [fr|e] eqn:E; [exfalso; apply (HG fr); now apply galacticus_fit_spec|].
    apply (ends_failed eager n Hn _ (galacticus_run_phases f) outdir tmp_name out HEADER
      (fit_line (galacticus_fit fitter dt T0)) halos' f ps A1 S1 h e Hin). unfold fit_line. now rewrite E.
  Qed.

  (** More ranks than halos: the ranks without a halo stop, the others wait for them. *)
  Lemma galacticus_run_none f : (List.length halos < n)%nat ->
    every_run eager n (start main f) (fun s =>
      (forall i, (i < n)%nat -> procs s i <> Exit (Ok tt)) /\ procs s (n - 1)%nat = Exit (Err IndexError) /\ fs s = f).
  Proof.
    intros HL.
    assert (Hz : (List.length halos / n = 0)%nat) by (apply Nat.div_small; exact HL).
    assert (Hm : (List.length halos mod n = List.length halos)%nat) by (apply Nat.mod_small; exact HL).
    assert (HE : forall i, (i < n)%nat -> exists indx, index (parts n (seq 0 (List.length halos))) i = Ok indx /\
      List.length indx = (if (i <? List.length halos)%nat then 1 else 0)%nat).
    { intros i Hi. unfold index. destruct (nth_error (parts n (seq 0 (List.length halos))) i) as [indx|] eqn:E.
      - exists indx. split; [reflexivity|].
        pose proof (array_split_nth (seq 0 (List.length halos)) n _ i indx Hn (parts_split n _ Hn) E) as X.
        rewrite seq_length, Hz, Hm in X. exact X.
      - apply nth_error_None in E. rewrite parts_length in E; lia. }
    assert (HP : forall i, (i < n)%nat -> if (i <? List.length halos)%nat then exists k, main i = Barrier k else main i = Exit (Err IndexError)).
    { intros i Hi. unfold main, galacticus_run. rewrite parts_split by exact Hn. cbn [lift].
      destruct (HE i Hi) as (indx & E1 & E2). rewrite E1. cbn [lift].
      destruct (i <? List.length halos)%nat.
      - destruct indx as [|x [|? ?]]; cbn in E2; try lia. cbn. eexists. reflexivity.
      - destruct indx; cbn in E2; [|lia]. reflexivity. }
    apply (every_run_like_one _ _ _ (start main f)).
    - apply galacticus_run_phases.
    - apply star_refl.
    - apply jammed; cbn [start procs].
      + exists (n - 1)%nat, (Err IndexError). split; [lia|]. specialize (HP (n - 1)%nat ltac:(lia)).
        destruct (Nat.ltb_spec (n - 1) (List.length halos)); [lia|exact HP].
      + intros i Hi. specialize (HP i Hi). destruct (i <? List.length halos)%nat; [right; exact HP|left; now exists (Err IndexError)].
    - cbn [start procs fs]. refine (conj _ (conj _ eq_refl)).
      + intros i Hi. specialize (HP i Hi). destruct (i <? List.length halos)%nat; [destruct HP as (k & ->); discriminate|rewrite HP; discriminate].
      + specialize (HP (n - 1)%nat ltac:(lia)). destruct (Nat.ltb_spec (n - 1) (List.length halos)); [lia|exact HP].
  Qed.
End Galacticus.

Section GalacticusMain.
  Context (eager : nat -> nat -> msg -> bool) (n : nat) (Hn : (0 < n)%nat).
  Context (fitter : list xr -> list xr -> bool -> res FitResult) (dt : xr) (outdir out : str) (halos : list (list xr * list xr)).
  Let main := galacticus_main fitter dt outdir out halos n.
  Let HK : forall i, (i < n)%nat -> (fun l : list (list xr * list xr) => l) (nth i (parts n halos) []) = nth i (parts n halos) [] :=
    fun _ _ => eq_refl.

  Lemma galacticus_phases f : race_free n (start main f).
  Proof. exact (galacticus_run_phases n fitter dt outdir out halos (fun l => l) f). Qed.
  Lemma galacticus_finished ls T0 frs f : (2 * n <= List.length halos)%nat ->
    Forall2 (fun h t => hd_error (rev (fst h)) = Some t) halos ls -> ~ In NaN ls -> top ls T0 ->
    Forall2 (galacticus_fit_of fitter dt T0) halos frs -> ~ temp_file (lit "tmp_mah_fits_rank_") out ->
    every_run eager n (start main f)
      (finished n outdir out (lit "tmp_mah_fits_rank_") f (fit_columns frs)).
  Proof.
    intros H2. apply (galacticus_run_finished eager n Hn fitter dt outdir out halos halos (fun l => l) HK ls T0 frs f); lia.
  Qed.
  Lemma galacticus_few ls T0 frs f : (n <= List.length halos < 2 * n)%nat ->
    Forall2 (fun h t => hd_error (rev (fst h)) = Some t) halos ls -> ~ In NaN ls -> top ls T0 ->
    Forall2 (galacticus_fit_of fitter dt T0) halos frs ->
    every_run eager n (start main f)
      (fun s => not_collated n outdir tmp_name HEADER (fun fr => get_outline fr None) f frs s /\
        forall i, (0 < i < n)%nat -> procs s i = Exit (Ok tt)).
  Proof.
    intros [H1 H2]. exact (galacticus_run_few eager n Hn fitter dt outdir out halos halos (fun l => l) HK ls T0 frs f H1 H2).
  Qed.
  Lemma galacticus_failed ls T0 h f : (n <= List.length halos)%nat ->
    Forall2 (fun h t => hd_error (rev (fst h)) = Some t) halos ls -> ~ In NaN ls -> top ls T0 ->
    In h halos -> (forall fr, ~ galacticus_fit_of fitter dt T0 h fr) ->
    every_run eager n (start main f) (failed n outdir tmp_name f).
  Proof. exact (galacticus_run_failed eager n Hn fitter dt outdir out halos halos (fun l => l) HK ls T0 h f). Qed.
  Lemma galacticus_none f : (List.length halos < n)%nat ->
    every_run eager n (start main f) (fun s =>
      (forall i, (i < n)%nat -> procs s i <> Exit (Ok tt)) /\ procs s (n - 1)%nat = Exit (Err IndexError) /\ fs s = f).
  Proof. exact (galacticus_run_none eager n Hn fitter dt outdir out halos (fun l => l) f). Qed.
End GalacticusMain.
