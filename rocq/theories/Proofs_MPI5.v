(** Runs of the TNG, Bolshoi and galacticus scripts. *)

From Coq Require Import Reals Lra Lia List ZArith Bool Ascii String FunctionalExtensionality.
From Verif Require Import Model_Num Model_Base Model_Kernels Model_Adam Model_Fitter Model_Outline
  Model_Utils Model_Data Model_MPI Spec_Kernels Spec_Fitter Spec_Outline Spec_MPI Proofs_Fitter Proofs_Fitter2 Proofs_Outline
  Proofs_Outline2 Props_Outline Spec_Data Proofs_Data Proofs_MPI Proofs_MPI2 Proofs_MPI3 Proofs_MPI4.
Import ListNotations.
Local Open Scope list_scope.

(** ** Sections of a list *)

Lemma Forall2_length {X Y} (R : X -> Y -> Prop) l l' : Forall2 R l l' -> List.length l = List.length l'.
Proof. induction 1; cbn [List.length]; congruence. Qed.

Definition parts {X} (n : nat) (l : list X) : list (list X) := chop (section_sizes (List.length l) n) l.

Lemma parts_split {X} n (l : list X) : (0 < n)%nat -> array_split l n = Ok (parts n l).
Proof. apply array_split_chop. Qed.
Lemma parts_length {X} n (l : list X) : (0 < n)%nat -> List.length (parts n l) = n.
Proof. intros H. unfold parts. now rewrite chop_length, sizes_length. Qed.
Lemma parts_concat {X} n (l : list X) : (0 < n)%nat -> List.concat (parts n l) = l.
Proof. intros H. unfold parts. apply chop_concat. now rewrite sizes_sum. Qed.
Lemma parts_sizes {X} n (l : list X) : (0 < n)%nat -> map (@List.length X) (parts n l) = section_sizes (List.length l) n.
Proof. intros H. unfold parts. apply chop_lengths. now rewrite sizes_sum. Qed.
Lemma parts_two {X} n (l : list X) : (0 < n)%nat -> (2 * n <= List.length l)%nat ->
  Forall (fun p => (2 <= List.length p)%nat) (parts n l).
Proof.
  intros Hn H. rewrite Forall_forall. intros p Hp. pose proof (in_map (@List.length X) _ _ Hp) as Hs.
  rewrite parts_sizes in Hs by exact Hn. apply sizes_In in Hs.
  assert (2 <= List.length l / n)%nat by (apply Nat.div_le_lower_bound; lia). lia.
Qed.
Lemma concat_two {X} (ls : list (list X)) : Forall (fun p => (2 <= List.length p)%nat) ls ->
  (2 * List.length ls <= List.length (List.concat ls))%nat.
Proof. induction 1 as [|p ls Hp _ IH]; cbn [List.concat List.length]; [lia|]. rewrite app_length. lia. Qed.
Lemma parts_few {X} n (l : list X) : (0 < n)%nat -> (List.length l < 2 * n)%nat ->
  Exists (fun p => (List.length p <= 1)%nat) (parts n l).
Proof.
  intros Hn H. apply Exists_exists.
  destruct (Forall_Exists_dec (fun p : list X => (2 <= List.length p)%nat) (fun p => le_dec 2 (List.length p)) (parts n l)) as [F|E].
  - apply concat_two in F. rewrite parts_length, parts_concat in F by exact Hn. lia.
  - apply Exists_exists in E as (p & Hp & N). exists p. split; [exact Hp|lia].
Qed.
Lemma parts_map {X Y} (g : X -> Y) n l : parts n (map g l) = map (map g) (parts n l).
Proof. unfold parts. now rewrite map_length, chop_map. Qed.
Lemma parts_Forall2 {X Y} (R : X -> Y -> Prop) n l l' : Forall2 R l l' -> Forall2 (Forall2 R) (parts n l) (parts n l').
Proof. intros H. unfold parts. rewrite <- (Forall2_length _ _ _ H). now apply Forall2_chop. Qed.
Lemma parts_nth {X Y} (R : X -> Y -> Prop) n l l' i : (i < n)%nat -> Forall2 R l l' ->
  Forall2 R (nth i (parts n l) []) (nth i (parts n l') []).
Proof.
  intros Hi H. apply Forall2_nth; [now apply parts_Forall2|]. rewrite parts_length; lia.
Qed.

Lemma take_parts {X} (l : list X) n i : (i < n)%nat -> exists indx,
  index (parts n (seq 0 (List.length l))) i = Ok indx /\ take l indx = Ok (nth i (parts n l) []).
Proof.
  intros Hi. unfold index. destruct (nth_error (parts n (seq 0 (List.length l))) i) as [indx|] eqn:E.
  - exists indx. split; [reflexivity|]. unfold parts in E. rewrite seq_length in E.
    destruct (take_split l n indx i) as (p & E1 & E2); [lia|exact E|]. rewrite E2. f_equal.
    symmetry. apply nth_error_nth. exact E1.
  - apply nth_error_None in E. rewrite parts_length in E; lia.
Qed.

Lemma rss_concat (g : FitResult -> list str) n frs : (0 < n)%nat ->
  List.concat (map (map g) (parts n frs)) = map g frs.
Proof. intros H. now rewrite <- concat_map, parts_concat. Qed.

Lemma Forall_concat_inv {X} (P : X -> Prop) ls : Forall P (List.concat ls) -> Forall (Forall P) ls.
Proof. induction ls as [|l ls IH]; cbn [List.concat]; intros H; constructor; apply Forall_app in H; [apply H|apply IH, H]. Qed.

(** ** A rank whose fits fail *)

Fixpoint first_err {H} (line : H -> res str) (l : list H) : option exn :=
  match l with [] => None | h :: l' => match line h with Ok _ => first_err line l' | Err e => Some e end end.

Lemma first_err_some {H} (line : H -> res str) l : (exists h e, In h l /\ line h = Err e) -> exists e, first_err line l = Some e.
Proof.
  induction l as [|x l IH]; intros (h & e & Hin & E); [destruct Hin|]. cbn [first_err].
  destruct (line x) as [s|e'] eqn:Ex; [|now exists e']. apply IH. destruct Hin as [->|Hin]; [congruence|now exists h, e].
Qed.

Lemma write_lines_outcome {A H} p (line : H -> res str) (k : prog A) : forall halos s f,
  f p = Some (Text s) -> exists f', local (write_lines p line halos k) f
    (match first_err line halos with Some e => Exit (Err e) | None => k end) f' /\ forall q, q <> p -> f' q = f q.
Proof.
  induction halos as [|h l IH]; intros s f Hf; cbn [write_lines first_err].
  - exists f. split; [constructor|reflexivity].
  - destruct (line h) as [x|e]; cbn [lift].
    + destruct (IH (s ++ x) (fset f p (Some (Text (s ++ x)))) (fset_same _ _ _)) as (f' & L & O).
      exists f'. split.
      * eapply local_S; [|exact L]. cbn [disk_step]. now rewrite Hf.
      * intros q Hq. rewrite O by exact Hq. now apply fset_other.
    + exists f. split; [constructor|reflexivity].
Qed.

Lemma write_rank_outcome {A H} p hdr (line : H -> res str) halos (k : prog A) f : exists f',
  local (write_rank_file p hdr line halos k) f
    (match first_err line halos with Some e => Exit (Err e) | None => k end) f' /\ forall q, q <> p -> f' q = f q.
Proof.
  destruct (write_lines_outcome p line k halos ([] ++ hdr) (fset f p (Some (Text ([] ++ hdr)))) (fset_same _ _ _)) as (f' & L & O).
  exists f'. split.
  - unfold write_rank_file. eapply local_S; [reflexivity|]. eapply local_S; [|exact L].
    cbn [disk_step]. rewrite fset_same. now rewrite fset_twice.
  - intros q Hq. rewrite O by exact Hq. now apply fset_other.
Qed.

Lemma jammed {A} eager n (s : state A) : (exists i r, (i < n)%nat /\ procs s i = Exit r) ->
  (forall i, (i < n)%nat -> (exists r, procs s i = Exit r) \/ (exists k, procs s i = Barrier k)) ->
  forall s', ~ step eager n s s'.
Proof.
  intros (i0 & r0 & Hi0 & E0) H s' S. inversion S as [s0 i p c Hi E|s0 i p f Hi E|s0 ks Hn E]; subst.
  - destruct (H i Hi) as [(r & X)|(k & X)]; rewrite X in E; discriminate.
  - destruct (H i Hi) as [(r & X)|(k & X)]; rewrite X in E; discriminate.
  - specialize (E i0 Hi0). congruence.
Qed.

Section Fail.
  Context {A : Type} (eager : nat -> nat -> msg -> bool) (n : nat) (outdir : str) (name : nat -> str) (hdr : str).

  Lemma fit_phase_fail {H} (line : nat -> H -> res str) (halos : nat -> list H) (K : nat -> prog A) ps c f :
    (exists i h e, (i < n)%nat /\ In h (halos i) /\ line i h = Err e) ->
    at_ n ps (fun i => write_rank_file (outdir, name i) hdr (line i) (halos i) (Barrier (K i))) ->
    exists ps' f',
      (exists i e, (i < n)%nat /\ ps' i = Exit (Err e)) /\
      (forall i, (i < n)%nat -> (exists e, ps' i = Exit (Err e)) \/ exists k, ps' i = Barrier k) /\
      (forall q, (forall i, (i < n)%nat -> q <> (outdir, name i)) -> f' q = f q) /\
      star eager n (mkState ps c f) (mkState ps' c f').
  Proof.
    intros (i0 & h0 & e0 & Hi0 & Hin & E0) HW.
    destruct (each_rank eager n _ (fun i => match first_err (line i) (halos i) with Some e => Exit (Err e) | None => Barrier (K i) end)
      (fun m g => forall q, (forall i, (i < m)%nat -> q <> (outdir, name i)) -> g q = f q) ps c f HW)
      as (ps' & f' & A1 & A2 & S).
    - reflexivity.
    - intros m g Hm Hg.
      destruct (write_rank_outcome (outdir, name m) hdr (line m) (halos m) (Barrier (K m)) g) as (g' & L & O).
      exists g'. split; [exact L|]. intros q Hq. rewrite O by (apply Hq; lia). apply Hg. intros i Hi. apply Hq. lia.
    - exists ps', f'. refine (conj _ (conj _ (conj A2 S))).
      + destruct (first_err_some (line i0) (halos i0)) as (e & E); [now exists h0, e0|].
        exists i0, e. split; [exact Hi0|]. rewrite (A1 i0 Hi0), E. reflexivity.
      + intros i Hi. rewrite (A1 i Hi). destruct (first_err (line i) (halos i)) as [e|]; [left; now exists e|right; now eexists].
  Qed.
End Fail.

(** ** Ends of the runs *)

Lemma glob_temp pre b : glob pre (lit ".dat") b = true <-> temp_file pre b.
Proof. apply glob_spec. Qed.

Lemma collated_finished n outdir name out f h (P : hdf -> Prop) ps :
  (forall i, (i < n)%nat -> ps i = Exit (Ok tt)) -> P h -> ~ temp_file (rm_prefix (name 0%nat)) out ->
  finished n outdir out (rm_prefix (name 0%nat)) f P (mkState ps quiet (collated outdir name f out h)).
Proof.
  intros HE HP HT. unfold finished, all_return, no_messages. cbn [procs chan fs]. unfold collated, removed. cbn [fst snd].
  refine (conj HE (conj (fun _ _ _ => eq_refl) (conj _ (conj _ _)))).
  - exists h. split; [|exact HP]. destruct (eqb_str outdir outdir && glob (rm_prefix (name 0%nat)) (lit ".dat") out)%bool eqn:E.
    + apply andb_prop in E as [_ E]. apply glob_temp in E. contradiction.
    + apply fset_same.
  - intros b Hb. apply glob_temp in Hb. rewrite Hb. assert (E : eqb_str outdir outdir = true) by (now apply eqb_str_eq).
    now rewrite E.
  - intros d b N1 N2. destruct (eqb_str d outdir && glob (rm_prefix (name 0%nat)) (lit ".dat") b)%bool eqn:E.
    + apply andb_prop in E as [E1 E2]. apply eqb_str_eq in E1. apply glob_temp in E2. tauto.
    + now apply fset_other.
Qed.

Lemma not_temp pre b c : hd_error pre = Some c -> hd_error b <> Some c -> ~ temp_file pre b.
Proof. intros H N (mid & -> & _). destruct pre; [discriminate|]. cbn in *. congruence. Qed.

Lemma fit_lines {H} (fit : H -> res FitResult) hs frs : Forall2 (fun h fr => fit h = Ok fr) hs frs ->
  Forall2 (fun h fr => fit_line fit h = Ok (row_text (out_fields fr))) hs frs.
Proof. induction 1 as [|h fr hs frs E _ IH]; constructor; [|exact IH]. unfold fit_line. rewrite E. cbn [bind]. now rewrite outline_row. Qed.

Lemma nth_map_map {X Y} (g : X -> Y) ls i : nth i (map (map g) ls) [] = map g (nth i ls []).
Proof. exact (map_nth (map g) ls [] i). Qed.

Section Ends.
  Context (eager : nat -> nat -> msg -> bool) (n : nat) (Hn : (0 < n)%nat) (s0 : state unit) (HRF : race_free n s0).
  Context (outdir : str) (name : nat -> str) (Hinj : forall i j, name i = name j -> i = j) (out : str).
  Context (hdr : str) (Hhdr : comment hdr) (w : nat) (Hw : (2 <= w)%nat).
  Context {H X : Type} (line : H -> res str) (halos : list H) (items : list X) (row : X -> list str).
  Context (f : tree).
  Context (ps : nat -> prog unit) (HW : at_ n ps (fun i =>
      write_rank_file (outdir, name i) hdr line (nth i (parts n halos) [])
        (Barrier (if Nat.eqb i 0 then collate outdir name out n (Exit (Ok tt)) else Exit (Ok tt)))))
    (HS : star eager n s0 (mkState ps quiet f)).

  Let rss := map (map row) (parts n items).

  Lemma rss_rows : Forall (fun r => List.length r = w /\ Forall word r) (map row items) ->
    Forall (Forall (fun r => List.length r = w /\ Forall word r)) rss.
  Proof. intros R. apply Forall_concat_inv. unfold rss. rewrite <- concat_map, parts_concat by exact Hn. exact R. Qed.

  Lemma rss_lines : Forall2 (fun h x => line h = Ok (row_text (row x))) halos items ->
    forall i, (i < n)%nat -> Forall2 (fun h r => line h = Ok (row_text r)) (nth i (parts n halos) []) (nth i rss []).
  Proof.
    intros F i Hi. unfold rss. rewrite nth_map_map. apply (parts_nth _ n _ _ i Hi) in F.
    clear - F. induction F; cbn [map]; constructor; auto.
  Qed.

  Lemma ends_finished (P : hdf -> Prop) fs' h :
    Forall2 (fun h x => line h = Ok (row_text (row x))) halos items ->
    Forall (fun r => List.length r = w /\ Forall word r) (map row items) ->
    (forall i, glob (rm_prefix (name 0%nat)) (lit ".dat") (name i) = true) ->
    ~ temp_file (rm_prefix (name 0%nat)) out ->
    write_collated_data (fun _ => None) out (mkTable w (map row items)) = (fs', Ok tt) -> fs' out = Some h -> P h ->
    (2 * n <= List.length halos)%nat ->
    every_run eager n s0 (finished n outdir out (rm_prefix (name 0%nat)) f P).
  Proof.
    intros F R HG HT EW EO HP H2.
    destruct (fit_phase eager n Hn outdir name Hinj hdr Hhdr w Hw rss ltac:(unfold rss; now rewrite map_length, parts_length)
      (rss_rows R) (fun _ => line) (fun i => nth i (parts n halos) []) out h fs' (fun _ => Exit (Ok tt)) ps f) as (ps' & A2 & S2).
    - unfold rss. apply Forall_map. apply (Forall_impl _ (P := fun p : list X => (2 <= List.length p)%nat)).
      + intros p Hp. now rewrite map_length.
      + apply parts_two; [exact Hn|]. now rewrite <- (Forall2_length _ _ _ F).
    - exact HG.
    - exact (rss_lines F).
    - unfold rss. rewrite <- concat_map, parts_concat by exact Hn. exact EW.
    - exact EO.
    - exact HW.
    - apply (every_run_like_one _ _ _ (mkState ps' quiet (collated outdir name f out h))).
      + exact HRF.
      + eapply star_trans; [exact HS|exact S2].
      + apply stopped. intros i Hi. eexists. exact (A2 i Hi).
      + apply collated_finished; auto.
  Qed.

  Lemma ends_few : Forall2 (fun h x => line h = Ok (row_text (row x))) halos items ->
    Forall (fun r => List.length r = w /\ Forall word r) (map row items) ->
    (List.length halos < 2 * n)%nat ->
    every_run eager n s0 (fun s => not_collated n outdir name hdr (fun x => row_text (row x)) f items s /\
      forall i, (0 < i < n)%nat -> procs s i = Exit (Ok tt)).
  Proof.
    intros F R H2.
    destruct (fit_phase_spoiled eager n Hn outdir name Hinj hdr Hhdr w Hw rss ltac:(unfold rss; now rewrite map_length, parts_length)
      (rss_rows R) (fun _ => line) (fun i => nth i (parts n halos) []) out (fun _ => Exit (Ok tt)) ps f)
      as (e & ps' & f' & _ & A2 & [W1 W2] & S2).
    - assert (E : Exists (fun p => (List.length p <= 1)%nat) (parts n items))
        by (apply parts_few; [exact Hn|now rewrite <- (Forall2_length _ _ _ F)]).
      apply Exists_exists in E as (p & Hp & L). apply Exists_exists. exists (map row p).
      split; [now apply in_map|]. now rewrite map_length.
    - exact (rss_lines F).
    - exact HW.
    - apply (every_run_like_one _ _ _ (mkState ps' quiet f')).
      + exact HRF.
      + eapply star_trans; [exact HS|exact S2].
      + apply stopped. intros i Hi. cbn [procs]. rewrite (A2 i Hi). destruct (Nat.eqb i 0); eexists; reflexivity.
      + split.
        * refine (conj _ (conj _ _)).
          -- exists e. exact (A2 0%nat Hn).
          -- exists (parts n items). refine (conj _ (conj _ _)); [now apply parts_length|now apply parts_concat|].
             intros i Hi. cbn [fs]. rewrite (W1 i Hi). unfold rank_text, rss. now rewrite nth_map_map, map_map.
          -- intros q Hq. now apply W2.
        * intros i Hi. cbn [procs]. rewrite (A2 i) by lia. destruct i; [lia|reflexivity].
  Qed.

  Lemma ends_failed h e : In h halos -> line h = Err e -> every_run eager n s0 (failed n outdir name f).
  Proof.
    intros Hin E.
    destruct (fit_phase_fail eager n outdir name hdr (fun _ => line) (fun i => nth i (parts n halos) [])
      (fun i => if Nat.eqb i 0 then collate outdir name out n (Exit (Ok tt)) else Exit (Ok tt)) ps quiet f)
      as (ps' & f' & (i0 & e0 & Hi0 & E0) & A2 & W2 & S2).
    - rewrite <- (parts_concat n halos Hn) in Hin. apply in_concat in Hin as (p & Hp & Hin).
      apply (In_nth _ _ []) in Hp as (i & Hi & Ep). rewrite parts_length in Hi by exact Hn. subst p.
      now exists i, h, e.
    - exact HW.
    - apply (every_run_like_one _ _ _ (mkState ps' quiet f')).
      + exact HRF.
      + eapply star_trans; [exact HS|exact S2].
      + apply jammed; cbn [procs]; [now exists i0, (Err e0)|]. intros i Hi. destruct (A2 i Hi) as [(x & Y)|(k & Y)]; [left; now exists (Err x)|right; now exists k].
      + refine (conj _ (conj _ _)); cbn [procs fs].
        * now exists i0, e0.
        * intros i r Hi. destruct (A2 i Hi) as [(x & Y)|(k & Y)]; rewrite Y; discriminate.
        * intros q Hq. now apply W2.
  Qed.
End Ends.

(** ** TNG *)

Section TNG.
  Context (eager : nat -> nat -> msg -> bool) (n : nat) (Hn : (0 < n)%nat).
  Context (fitter : list xr -> res FitResult) (outdir : str) (mahs : list (list xr)).
  Let out := lit "diffmah_tng_fits.hdf5".

  Lemma tng_phases f : race_free n (start (tng_main fitter outdir mahs n) f).
  Proof.
    apply (phases_race_free n _ [idle; idle; own outdir tmp_name; root_only]).
      - repeat constructor; [apply exclusive_idle|apply exclusive_idle|apply exclusive_own, tmp_name_inj|apply exclusive_root].
      - intros i Hi. cbn [start procs]. unfold tng_main. apply within_lift. intros splits _. apply within_lift. intros indx _.
        apply within_lift. intros m _. cbn [within foot map tl]. apply within_reduce. intros _. cbn [within tl].
        apply within_write_rank; [reflexivity|]. cbn [within tl]. destruct (Nat.eqb_spec i 0) as [->|N]; [|exact I].
        apply within_collate; [|exact I]. intros q. reflexivity.
  Qed.

  Lemma tng_start f : exists ps, at_ n ps (fun i =>
      write_rank_file (outdir, tmp_name i) HEADER (fit_line fitter) (nth i (parts n mahs) [])
        (Barrier (if Nat.eqb i 0 then collate outdir tmp_name out n (Exit (Ok tt)) else Exit (Ok tt)))) /\
    star eager n (start (tng_main fitter outdir mahs n) f) (mkState ps quiet f).
  Proof.
    destruct (barrier_star eager n (fun i => reduce op_sum i n (MInt (Z.of_nat (List.length (nth i (parts n mahs) [])))) (fun _ =>
      Barrier (write_rank_file (outdir, tmp_name i) HEADER (fit_line fitter) (nth i (parts n mahs) [])
        (Barrier (if Nat.eqb i 0 then collate outdir tmp_name out n (Exit (Ok tt)) else Exit (Ok tt))))))
      (tng_main fitter outdir mahs n) quiet f Hn) as (ps1 & A1 & S1).
    { intros i Hi. unfold tng_main. rewrite parts_split by exact Hn. cbn [lift].
      destruct (take_parts mahs n i Hi) as (indx & E1 & E2). rewrite E1. cbn [lift]. rewrite E2. reflexivity. }
    destruct (reduce_star eager n _ _ _ _ f Hn A1) as (ps2 & A2 & S2).
    destruct (barrier_star eager n _ ps2 quiet f Hn A2) as (ps3 & A3 & S3).
    exists ps3. split; [exact A3|]. eapply star_trans; [exact S1|]. eapply star_trans; [exact S2|exact S3].
  Qed.

  Lemma tng_finished frs f : (2 * n <= List.length mahs)%nat -> Forall2 (fun m fr => fitter m = Ok fr) mahs frs ->
    every_run eager n (start (tng_main fitter outdir mahs n) f)
      (finished n outdir out (lit "tmp_mah_fits_rank_") f (fit_columns frs)).
  Proof.
    intros H2 HF. destruct (fits_table out frs) as (fs' & h & EW & EO & HC). destruct (tng_start f) as (ps & A1 & S1).
    rewrite <- rm_prefix_tmp.
    apply (ends_finished eager n Hn _ (tng_phases f) outdir tmp_name tmp_name_inj out HEADER comment_HEADER 8 ltac:(lia)
      (fit_line fitter) mahs frs out_fields f ps A1 S1 _ fs' h); auto.
    - now apply fit_lines.
    - apply rows_ok.
    - rewrite rm_prefix_tmp. exact tmp_glob.
    - rewrite rm_prefix_tmp. now apply (not_temp _ _ "t"%char).
  Qed.

  Lemma tng_few frs f : (List.length mahs < 2 * n)%nat -> Forall2 (fun m fr => fitter m = Ok fr) mahs frs ->
    every_run eager n (start (tng_main fitter outdir mahs n) f)
      (fun s => not_collated n outdir tmp_name HEADER (fun fr => get_outline fr None) f frs s /\
        forall i, (0 < i < n)%nat -> procs s i = Exit (Ok tt)).
  Proof.
    intros H2 HF. destruct (tng_start f) as (ps & A1 & S1).
    apply (ends_few eager n Hn _ (tng_phases f) outdir tmp_name tmp_name_inj out HEADER comment_HEADER 8 ltac:(lia)
      (fit_line fitter) mahs frs out_fields f ps A1 S1); auto.
    - now apply fit_lines.
    - apply rows_ok.
  Qed.

  Lemma tng_failed m e f : In m mahs -> fitter m = Err e ->
    every_run eager n (start (tng_main fitter outdir mahs n) f) (failed n outdir tmp_name f).
  Proof.
    intros Hin E. destruct (tng_start f) as (ps & A1 & S1).
    apply (ends_failed eager n Hn _ (tng_phases f) outdir tmp_name out HEADER
      (fit_line fitter) mahs f ps A1 S1 m e Hin). unfold fit_line. now rewrite E.
  Qed.
End TNG.
