(** Collation of the samples of all subvolumes. *)

From Coq Require Import Reals String Lra Lia List ZArith Bool Ascii.
From Verif Require Import Model_Num Model_Base Model_Kernels Model_Fitter Model_Outline Model_Utils Model_Data
  Model_MPI Model_Tab Spec_Outline Spec_Tab Proofs_Outline Proofs_Outline2 Proofs_MPI Proofs_MPI3 Proofs_MPI8 Proofs_Data5 Proofs_Tab.
Import ListNotations.
Local Open Scope list_scope.

(** ** Grids *)

Lemma linspace_points a b n : np_linspace (Fin a) (Fin b) (Z.of_nat n) = Ok (map Fin (points a b n)).
Proof.
  unfold np_linspace, points. destruct (Z.ltb_spec (Z.of_nat n) 0); [lia|].
  destruct (Z.eqb_spec (Z.of_nat n) 1) as [E|E].
  - assert (n = 1%nat) by lia. subst n. cbn [seq map]. f_equal. f_equal. f_equal. cbn [INR]. ring.
  - f_equal. rewrite map_map, Nat2Z.id. apply map_ext_in. intros i Hi. apply in_seq in Hi.
    assert (H2 : (2 <= n)%nat) by lia.
    cbn [xsub xneg xadd xdiv]. unfold xsub. cbn [xneg xadd].
    unfold Reqb. rewrite minus_IZR, <- INR_IZR_INZ.
    assert (HR : (2 <= INR n)%R) by (change 2%R with (INR 2); now apply le_INR).
    cbn [xdiv]. unfold Reqb. destruct (Req_EM_T (INR n - 1)%R 0%R); [lra|]. cbn [xmul xadd]. reflexivity.
Qed.

Lemma times_points t0 n_t : get_t_obs_table (Fin t0) (Z.of_nat n_t) = Ok (map Fin (points 2 t0 n_t)).
Proof. apply linspace_points. Qed.
Lemma masses_points t n_m : lgmarr_table_from_t_obs_kern (Fin t) (Z.of_nat n_m) = Ok (map Fin (bin_masses t n_m)).
Proof. apply linspace_points. Qed.

(** ** Pieces of a name *)

Lemma split_on_nonempty c s : split_on c s <> [].
Proof.
  destruct s as [|a s]; [discriminate|]. cbn [split_on]. destruct (split_on c s); [discriminate|].
  destruct (Ascii.eqb a c); discriminate.
Qed.
Lemma split_on_app c a b : split_on c (a ++ c :: b) = split_on c a ++ split_on c b.
Proof.
  induction a as [|x a IH].
  - cbn [app split_on]. destruct (split_on c b) as [|w l] eqn:E; [now apply split_on_nonempty in E|].
    now rewrite Ascii.eqb_refl.
  - cbn [app split_on]. rewrite IH. destruct (split_on c a) as [|w l] eqn:E; [now apply split_on_nonempty in E|].
    cbn [app]. destruct (Ascii.eqb x c); reflexivity.
Qed.

Lemma split_bin_length b kind : In kind kinds -> List.length (split_on "_"%char (bin_name b kind ++ lit ".txt")) = 6%nat.
Proof.
  intros HK. unfold bin_name.
  assert (N : forall x, ~ In "_"%char (format_2f x)).
  { intros x Hx. apply number_2f in Hx. revert Hx. not_char. }
  set (f := format_2f (Fin (fst b))). set (g := format_2f (Fin (snd b))).
  replace ((lit "lgm_" ++ f ++ lit "_t_" ++ g ++ lit "_mah_params." ++ kind) ++ lit ".txt")
    with (lit "lgm" ++ "_"%char :: (f ++ "_"%char :: (lit "t" ++ "_"%char :: (g ++ "_"%char :: (lit "mah" ++ "_"%char :: ((lit "params." ++ kind) ++ lit ".txt"))))))
    by (rewrite <- !app_assoc; reflexivity).
  rewrite !split_on_app, !app_length. rewrite (split_on_none _ f), (split_on_none _ g) by apply N.
  destruct HK as [<-|[<-|[]]]; reflexivity.
Qed.

(** ** Reading *)

Lemma reshape_rows rows : Forall (fun r => List.length r = 6%nat) rows -> reshape6 (concat rows) = Ok rows.
Proof.
  induction 1 as [|r rows H _ IH]; [reflexivity|].
  do 6 (destruct r as [|? r]; [discriminate|]). destruct r; [|discriminate].
  cbn [concat app reshape6]. now rewrite IH.
Qed.

Lemma read_rows d p rows : dfind d p = Some (Txt rows) -> Forall (fun r => List.length r = 6%nat) rows ->
  bind (loadtxt d p) reshape6 = Ok rows.
Proof.
  intros E H. unfold loadtxt. rewrite E.
  assert (X : forallb (fun r => Nat.eqb (List.length r) (List.length (hd [] rows))) rows = true).
  { apply forallb_forall. intros r Hr. apply Nat.eqb_eq. rewrite Forall_forall in H. rewrite (H r Hr).
    destruct rows as [|r0 rows]; [contradiction|]. cbn [hd]. symmetry. apply H. now left. }
  rewrite X. cbn [bind]. now apply reshape_rows.
Qed.

Lemma mbind_pure {A B} (m : M A) (k : A -> M B) d r : m d = ([], d, r) ->
  mbind m k d = match r with Ok a => k a d | Err e => ([], d, Err e) end.
Proof. intros E. unfold mbind. rewrite E. destruct r as [a|e]; [|reflexivity]. now destruct (k a d) as [[tr d2] r]. Qed.

Lemma mmap_read {A B} (g : A -> disk -> res B) l d :
  mmap (fun a => let! x := mlook (g a) in mlift x) l d = ([], d, collect (map (fun a => g a d) l)).
Proof.
  induction l as [|a l IH]; [reflexivity|]. cbn [mmap map collect].
  rewrite (mbind_pure _ _ d (g a d)) by (rewrite (mbind_pure _ _ d (Ok (g a d))); reflexivity).
  destruct (g a d) as [b|e]; cbn [bind]; [|reflexivity].
  rewrite (mbind_pure _ _ d _ IH). destruct (collect _); reflexivity.
Qed.

Lemma wp_mmap_read {A B} (I : disk -> Prop) (g : A -> disk -> res B) l d (Q : res (list B) -> disk -> Prop) :
  Q (collect (map (fun a => g a d) l)) d -> wp I (mmap (fun a => let! x := mlook (g a) in mlift x) l) Q d.
Proof. intros H. unfold wp. rewrite mmap_read. split; [constructor|exact H]. Qed.

Lemma wp_save (I : disk -> Prop) out bn a (Q : res unit -> disk -> Prop) d :
  (forall c, I (dput (out, npy_name bn) c d)) ->
  (forall x, outside out x = outside out d -> dfind x (out, npy_name bn) = Some (Npy a) ->
    (forall q, q <> (out, npy_name bn) -> dfind x q = dfind d q) ->
    I x /\ Q (Ok tt) x) -> wp I (np_save out bn a) Q d.
Proof.
  intros H1 H2. unfold np_save. apply wp_bind. apply wp_act; [apply H1|].
  destruct (H2 (dput (out, npy_name bn) (Npy a) (dput (out, npy_name bn) Other d))) as [X Y].
  - now rewrite !outside_dput.
  - apply dfind_dput_eq.
  - intros q N. rewrite !dfind_dput_neq by congruence. reflexivity.
  - now apply wp_act.
Qed.

Section Collate.
  Variables (drn out : str) (d : disk).
  Hypothesis out_neq : drn <> out.

  (** ** Whatever the disk holds, saving touches only the output directory *)

  Definition same_outside (x : disk) : Prop := outside out x = outside out d.

  Lemma collate_bin_outside l t c x : same_outside x ->
    wp same_outside (collate_bin drn out l t c) (fun _ y => same_outside y) x.
  Proof.
    intros H. unfold collate_bin. apply wp_bind, wp_look. apply wp_bind.
    apply wp_mmap_read. destruct (collect _) as [coll|e]; [|exact H].
    destruct (dglob drn _ _ x) as [|bn bns]; [now apply wp_ret|].
    apply wp_save.
    - intros cc. unfold same_outside. now rewrite outside_dput.
    - intros y E _ _. unfold same_outside. rewrite E. now split.
  Qed.

  Lemma bins_outside ts n_m x : same_outside x ->
    wp same_outside (mfor ts (fun t_obs =>
      let! lgm_obs_arr := mlift (lgmarr_table_from_t_obs_kern t_obs n_m) in
      mfor lgm_obs_arr (fun lgm_obs =>
        let! _ := collate_bin drn out lgm_obs t_obs (lit "cens") in
        collate_bin drn out lgm_obs t_obs (lit "sats")))) (fun _ y => same_outside y) x.
  Proof.
    intros H. eapply wp_conseq; [apply (wp_for _ (fun _ => same_outside) (fun _ => same_outside)); [|exact H]|].
    2: { now intros [u|e] y Hy. }
    intros t rest y _ Hy. apply wp_bind, wp_lift.
    destruct (lgmarr_table_from_t_obs_kern t n_m) as [ls|e]; [|exact Hy].
    apply (wp_for _ (fun _ => same_outside) (fun _ => same_outside)); [|exact Hy].
    intros l rest2 z _ Hz. apply wp_bind. eapply wp_conseq; [now apply collate_bin_outside|].
    intros [u|e] w Hw; [|exact Hw]. eapply wp_conseq; [now apply collate_bin_outside|].
    now intros [u2|e] v Hv.
  Qed.

  (** ** Removing *)

  (** A name "rm drn/subvol_{0..9}*" removes *)
  Definition doomed (p : path) : Prop :=
    exists k, (0 <= k < 10)%Z /\ fst p = drn /\ glob (lit "subvol_" ++ str_of_int k) [] (snd p) = true.

  Lemma dglob_In pre suf x bn : pre <> [] -> (In bn (dglob drn pre suf x) <->
    (exists f, In ((drn, bn), f) (dfiles x)) /\ glob pre suf bn = true).
  Proof.
    intros NE. unfold dglob. rewrite in_map_iff. split.
    - intros ([[dir bn'] f] & E & H). cbn [fst snd] in E. subst bn'. apply filter_In in H. destruct H as [H1 H2].
      cbn [fst snd] in H2. apply andb_true_iff in H2. destruct H2 as [H2 _]. apply andb_true_iff in H2. destruct H2 as [H2 H3].
      apply eqb_str_eq in H2. subst dir. split; [now exists f|exact H3].
    - intros ((f & H1) & H2). exists ((drn, bn), f). split; [reflexivity|]. apply filter_In. split; [exact H1|].
      cbn [fst snd]. rewrite eqb_str_refl, H2. destruct pre; [contradiction|reflexivity].
  Qed.

  Lemma remove_wp (I : disk -> Prop) x0 :
    (forall x, (forall p, ~ doomed p -> dfind x p = dfind x0 p) -> I x) ->
    wp I (remove_samples drn) (fun r x => r = Ok tt /\ (forall p, ~ doomed p -> dfind x p = dfind x0 p) /\
      (forall p, doomed p -> dfind x p = None)) x0.
  Proof.
    intros HI. unfold remove_samples.
    set (J := fun (rest : list Z) (x : disk) => (forall p, ~ doomed p -> dfind x p = dfind x0 p) /\
      forall k bn, (0 <= k < 10)%Z -> ~ In k rest -> glob (lit "subvol_" ++ str_of_int k) [] bn = true -> dfind x (drn, bn) = None).
    eapply wp_conseq; [apply (wp_for I J (fun _ _ => False))|].
    - intros k rest x (pre & Epre) [J1 J2].
      assert (Hk : (0 <= k < 10)%Z).
      { assert (X : In k (zrange 0 10)) by (rewrite Epre; apply in_or_app; right; now left).
        now apply zrange_In in X. }
      apply wp_bind, wp_look. set (pat := lit "subvol_" ++ str_of_int k).
      set (J' := fun (todo : list str) (y : disk) => (forall p, ~ doomed p -> dfind y p = dfind x0 p) /\
        (forall k' bn, (0 <= k' < 10)%Z -> ~ In k' (k :: rest) -> glob (lit "subvol_" ++ str_of_int k') [] bn = true -> dfind y (drn, bn) = None) /\
        (forall bn, glob pat [] bn = true -> ~ In bn todo -> dfind y (drn, bn) = None)).
      eapply wp_conseq; [apply (wp_for I J' (fun _ _ => False))|].
      + intros bn todo y (pre2 & Epre2) (K1 & K2 & K3).
        assert (Hbn : glob pat [] bn = true).
        { assert (X : In bn (dglob drn pat [] x)) by (rewrite Epre2; apply in_or_app; right; now left).
          apply dglob_In in X; [now destruct X|]. discriminate. }
        assert (K1' : forall p, ~ doomed p -> dfind (ddel (drn, bn) y) p = dfind x0 p).
        { intros p Hp. rewrite dfind_del_neq; [now apply K1|]. intros <-. apply Hp. now exists k. }
        apply wp_act; [apply HI; exact K1'|]. split; [exact K1'|]. split.
        * intros k' bn' H1 H2 H3. destruct (list_eq_dec ascii_dec bn bn') as [->|N]; [apply dfind_del_eq|].
          rewrite dfind_del_neq by congruence. now apply (K2 k').
        * intros bn' H1 H2. destruct (list_eq_dec ascii_dec bn bn') as [->|N]; [apply dfind_del_eq|].
          rewrite dfind_del_neq by congruence. apply K3; [exact H1|]. intros [E|E]; contradiction.
      + split; [exact J1|]. split; [exact J2|]. intros bn H1 H2. apply dfind_None. intros f Hf. apply H2.
        apply dglob_In; [discriminate|]. split; [now exists f|exact H1].
      + intros [u|e] y; [|contradiction]. intros (K1 & K2 & K3). split; [exact K1|]. intros k' bn H1 H2 H3.
        destruct (Z.eq_dec k k') as [<-|N]; [apply K3; [exact H3|easy]|]. apply (K2 k'); auto. intros [E|E]; contradiction.
    - split; [reflexivity|]. intros k bn H1 H2. exfalso. apply H2. now apply zrange_In.
    - intros [u|e] y; [|contradiction]. intros (J1 & J2). split; [now destruct u|]. split; [exact J1|].
      intros [dir bn] (k & H1 & H2 & H3). cbn [fst snd] in *. subst dir. apply (J2 k); auto.
  Qed.

  (** ** A directory of samples *)

  Variables (t0 : R) (n_m n_t : nat).
  Hypothesis samples : sample_dir d drn (bins t0 n_m n_t).
  Hypothesis fresh : forall p f, In (p, f) (dfiles d) -> fst p <> out.

  Definition expected (name : str) : option content :=
    match bin_tables d drn name with [] => None | tables => Some (Npy (mkArr2 6 (concat tables))) end.

  Lemma names_no_slash p f : In (p, f) (dfiles d) -> subvol_file drn p -> ~ In "/"%char (snd p).
  Proof.
    intros H1 H2. destruct samples as [_ S]. destruct (S p f H1 H2) as (k & b & kind & rows & _ & _ & HK & -> & _).
    now apply sample_no_slash.
  Qed.

  (** The files of a bin, as listed and as specified *)
  Lemma dglob_bin b kind :
    dglob drn (lit "subvol_") (bin_suffix (Fin (fst b)) (Fin (snd b)) kind) d =
    map (fun e : path * content => snd (fst e)) (filter (fun e : path * content => of_bin drn (bin_name b kind) (fst e)) (dfiles d)).
  Proof.
    rewrite bin_suffix_name. unfold dglob. f_equal. apply filter_ext_in. intros [[dir bn] f] Hin. cbn [fst snd].
    destruct (eqb_str dir drn) eqn:Ed.
    - apply eqb_str_eq in Ed. subst dir. cbn [andb]. rewrite andb_true_r.
      destruct (starts_with (lit "subvol_") bn) eqn:Es.
      + apply starts_iff in Es.
        assert (N : ~ In "/"%char bn) by (apply (names_no_slash (drn, bn) f Hin); now split).
        rewrite <- (glob_of_bin drn _ bn N), eqb_str_refl. reflexivity.
      + unfold of_bin. cbn [fst snd]. rewrite Es, andb_false_r. cbn [andb].
        destruct (glob (lit "subvol_") _ bn) eqn:Eg; [|reflexivity]. apply glob_spec in Eg. destruct Eg as (mid & -> & _).
        assert (X : starts_with (lit "subvol_") (lit "subvol_" ++ mid ++ lit "_" ++ bin_name b kind ++ lit ".txt") = true).
        { apply starts_iff. eexists. reflexivity. }
        congruence.
    - unfold of_bin. cbn [fst]. now rewrite Ed.
  Qed.

  Lemma of_bin_file b kind p f : In (p, f) (dfiles d) -> of_bin drn (bin_name b kind) p = true ->
    exists k b' kind' rows, In kind' kinds /\ snd p = sample_file k b' kind' /\ fst p = drn /\ f = Txt rows /\
      Forall (fun r => List.length r = 6%nat) rows.
  Proof.
    intros H1 H2. unfold of_bin in H2. rewrite !andb_true_iff in H2. destruct H2 as (((Ed & Es) & _) & _).
    apply eqb_str_eq in Ed. apply starts_iff in Es. destruct samples as [_ S].
    destruct (S p f H1 (conj Ed Es)) as (k & b' & kind' & rows & _ & _ & HK & E & E2 & F). eauto 10.
  Qed.

  (** A sample found for a bin is one of that bin. *)
  Lemma of_bin_name k b kind b' kind' : In kind kinds -> In kind' kinds ->
    of_bin drn (bin_name b kind) (drn, sample_file k b' kind') = true -> bin_name b' kind' = bin_name b kind.
  Proof.
    intros HK HK' H. rewrite <- glob_of_bin in H by now apply sample_no_slash.
    apply andb_true_iff in H. destruct H as [_ H]. apply glob_spec in H. destruct H as (mid & E & _).
    unfold sample_file in E. apply app_inv_head in E. apply (f_equal (split_on "_"%char)) in E.
    change (lit "_" ++ bin_name b' kind' ++ lit ".txt") with ("_"%char :: (bin_name b' kind' ++ lit ".txt")) in E.
    change (lit "_" ++ bin_name b kind ++ lit ".txt") with ("_"%char :: (bin_name b kind ++ lit ".txt")) in E.
    rewrite split_on_cons in E by (apply int_no_char; not_char). rewrite split_on_app in E.
    assert (L := f_equal (@List.length _) E). cbn [List.length] in L. rewrite app_length, !split_bin_length in L by assumption.
    destruct (split_on "_"%char mid) as [|m1 [|m2 ms]]; cbn in L; try lia.
    cbn [app] in E. apply (f_equal (@tl _)) in E. cbn [tl] in E. apply (f_equal (join_on "_"%char)) in E. rewrite !join_split in E.
    now apply app_inv_tail in E.
  Qed.

  (** ** Saving the bins *)

  Definition item : Type := (R * R) * str.
  Definition items_at (t : R) (ms : list R) : list item :=
    flat_map (fun m => [((m, t), lit "cens"); ((m, t), lit "sats")]) ms.
  Definition items (ts : list R) : list item := flat_map (fun t => items_at t (bin_masses t n_m)) ts.

  Lemma items_kinds ts b kind : In (b, kind) (items ts) -> In kind kinds.
  Proof.
    intros H. unfold items, items_at in H. apply in_flat_map in H. destruct H as (t & _ & H). apply in_flat_map in H.
    destruct H as (m & _ & [E|[E|[]]]); injection E as <- <-; cbn; tauto.
  Qed.
  Lemma items_all b kind : In b (bins t0 n_m n_t) -> In kind kinds -> In (b, kind) (items (points 2 t0 n_t)).
  Proof.
    intros H HK. unfold bins in H. apply in_flat_map in H. destruct H as (t & Ht & H). apply in_map_iff in H.
    destruct H as (m & <- & Hm). unfold items. apply in_flat_map. exists t. split; [exact Ht|].
    unfold items_at. apply in_flat_map. exists m. split; [exact Hm|].
    destruct HK as [<-|[<-|[]]]; cbn; tauto.
  Qed.
  Lemma items_bins b kind : In (b, kind) (items (points 2 t0 n_t)) -> In b (bins t0 n_m n_t).
  Proof.
    intros H. unfold items, items_at in H. apply in_flat_map in H. destruct H as (t & Ht & H). apply in_flat_map in H.
    destruct H as (m & Hm & H). unfold bins. apply in_flat_map. exists t. split; [exact Ht|]. apply in_map_iff. exists m.
    destruct H as [E|[E|[]]]; injection E as <- <-; auto.
  Qed.

  (** The output directory once the bins [done] are saved *)
  Definition saved (done : list item) (x : disk) : Prop :=
    same_outside x /\
    (forall b kind, In (b, kind) done -> dfind x (out, bin_file b kind) = expected (bin_name b kind)) /\
    (forall bn, (forall b kind, In (b, kind) done -> bn <> bin_file b kind) -> dfind x (out, bn) = None).

  Lemma bin_file_name b kind b' kind' : bin_file b kind = bin_file b' kind' -> bin_name b kind = bin_name b' kind'.
  Proof. apply app_inv_tail. Qed.

  Lemma saved_dec (done : list item) bn :
    (exists b kind, In (b, kind) done /\ bn = bin_file b kind) \/ (forall b kind, In (b, kind) done -> bn <> bin_file b kind).
  Proof.
    induction done as [|[b kind] done IH]; [right; intros ? ? []|].
    destruct (list_eq_dec ascii_dec bn (bin_file b kind)) as [E|N].
    - left. exists b, kind. split; [now left|exact E].
    - destruct IH as [(b' & k' & H & E)|H].
      + left. exists b', k'. split; [now right|exact E].
      + right. intros b' k' [E|H2]; [injection E as <- <-; exact N|now apply H].
  Qed.

  Lemma collector_tables x b kind : same_outside x ->
    collect (map (fun bn => let* l := loadtxt x (drn, bn) in reshape6 l)
      (map (fun e : path * content => snd (fst e)) (filter (fun e : path * content => of_bin drn (bin_name b kind) (fst e)) (dfiles d)))) =
    Ok (bin_tables d drn (bin_name b kind)).
  Proof.
    intros HS. apply collect_spec. unfold bin_tables. rewrite map_map.
    set (l := filter _ _).
    assert (Hl : forall e, In e l -> In e (dfiles d) /\ of_bin drn (bin_name b kind) (fst e) = true) by (intros e; apply filter_In).
    clearbody l. induction l as [|[p f] l IH]; [constructor|]. cbn [map]. constructor.
    - destruct (Hl (p, f)) as [H1 H2]; [now left|]. cbn [fst snd] in *.
      destruct (of_bin_file b kind p f H1 H2) as (k & b' & kind' & rows & _ & _ & Ed & -> & F).
      apply read_rows; [|exact F]. replace (drn, snd p) with p by (destruct p; cbn in *; congruence).
      rewrite (outside_dfind out x d p HS) by congruence.
      apply dfind_unique; [apply samples|exact H1].
    - apply IH. intros e He. apply Hl. now right.
  Qed.

  Lemma collate_bin_saved done b kind x : In kind kinds -> saved done x ->
    wp same_outside (collate_bin drn out (Fin (fst b)) (Fin (snd b)) kind)
      (fun r y => r = Ok tt /\ saved (done ++ [(b, kind)]) y) x.
  Proof.
    intros HK (S1 & S2 & S3). unfold collate_bin. apply wp_bind, wp_look. apply wp_bind.
    rewrite (dglob_outside out drn _ _ x d out_neq S1), dglob_bin.
    apply wp_mmap_read. rewrite (collector_tables x b kind S1).
    set (l := filter (fun e : path * content => of_bin drn (bin_name b kind) (fst e)) (dfiles d)).
    assert (EB : bin_tables d drn (bin_name b kind) =
      map (fun e : path * content => match snd e with Txt rows => rows | _ => [] end) l) by reflexivity.
    assert (Hl : forall e, In e l -> In e (dfiles d) /\ of_bin drn (bin_name b kind) (fst e) = true) by (intros e; apply filter_In).
    clearbody l. destruct l as [|[p f] l]; cbn [map].
    - apply wp_ret. split; [reflexivity|]. split; [exact S1|]. cbn [map] in EB. split.
      + intros b' k' H. apply in_app_or in H. destruct H as [H|[E|[]]]; [now apply S2|]. injection E as <- <-.
        unfold expected. rewrite EB. destruct (saved_dec done (bin_file b kind)) as [(b2 & k2 & H2 & E2)|N].
        * rewrite E2, (S2 b2 k2 H2). unfold expected. now rewrite <- (bin_file_name _ _ _ _ E2), EB.
        * now apply S3.
      + intros bn H. apply S3. intros b' k' H'. apply H. apply in_or_app. now left.
    - destruct (Hl (p, f)) as [H1 H2]; [now left|]. cbn [fst snd] in *.
      destruct (of_bin_file b kind p f H1 H2) as (k & b' & kind' & rows & HK' & En & Ed & _ & _).
      assert (EN : bin_name b' kind' = bin_name b kind).
      { apply (of_bin_name k); auto. replace (drn, sample_file k b' kind') with p by (destruct p; cbn in *; congruence). exact H2. }
      assert (EO : npy_name (remove_from (lit ".txt") 0 (join_on "_"%char (skipn 2 (split_on "_"%char (snd p))))) = bin_file b kind).
      { rewrite En, out_name by exact HK'. unfold bin_file. now rewrite EN. }
      apply wp_save.
      + intros cc. unfold same_outside. now rewrite outside_dput.
      + rewrite EO. intros y Y1 Y2 Y3. split; [unfold same_outside; now rewrite Y1|]. split; [reflexivity|].
        split; [unfold same_outside; now rewrite Y1|]. split.
        * assert (X : dfind y (out, bin_file b kind) = expected (bin_name b kind)).
          { rewrite Y2. unfold expected. now rewrite EB. }
          intros b2 k2 H. apply in_app_or in H. destruct H as [H|[E|[]]]; [|injection E as <- <-; exact X].
          destruct (list_eq_dec ascii_dec (bin_file b2 k2) (bin_file b kind)) as [E|N].
          -- rewrite E, X. now rewrite (bin_file_name _ _ _ _ E).
          -- rewrite Y3 by congruence. now apply S2.
        * intros bn H. rewrite Y3; [apply S3; intros b2 k2 H'; apply H; apply in_or_app; now left|].
          intros E. injection E as E. apply (H b kind); [apply in_or_app; right; now left|exact E].
  Qed.

  Lemma saved_nil x : same_outside x -> (forall bn, dfind x (out, bn) = None) -> saved [] x.
  Proof. intros H1 H2. split; [exact H1|]. split; [intros ? ? []|]. intros bn _. apply H2. Qed.

  Lemma bins_saved x : same_outside x -> (forall bn, dfind x (out, bn) = None) ->
    wp same_outside (mfor (map Fin (points 2 t0 n_t)) (fun t_obs =>
      let! lgm_obs_arr := mlift (lgmarr_table_from_t_obs_kern t_obs (Z.of_nat n_m)) in
      mfor lgm_obs_arr (fun lgm_obs =>
        let! _ := collate_bin drn out lgm_obs t_obs (lit "cens") in
        collate_bin drn out lgm_obs t_obs (lit "sats")))) (fun r y => r = Ok tt /\ saved (items (points 2 t0 n_t)) y) x.
  Proof.
    intros H1 H2.
    set (J := fun (rest : list xr) (y : disk) => exists done ts, rest = map Fin ts /\
      items (points 2 t0 n_t) = done ++ items ts /\ saved done y).
    eapply wp_conseq; [apply (wp_for same_outside J (fun _ _ => False))|].
    - intros t rest y _ (done & ts & E & EI & HS). destruct ts as [|t1 ts]; [discriminate|]. injection E as -> ->.
      apply wp_bind, wp_lift. rewrite masses_points.
      set (K := fun (rest : list xr) (z : disk) => exists done2 ms, rest = map Fin ms /\
        items_at t1 (bin_masses t1 n_m) = done2 ++ items_at t1 ms /\ saved (done ++ done2) z).
      eapply wp_conseq; [apply (wp_for same_outside K (fun _ _ => False))|].
      + intros m rest z _ (done2 & ms & E & EM & HZ). destruct ms as [|m1 ms]; [discriminate|]. injection E as -> ->.
        apply wp_bind. eapply wp_conseq; [apply (collate_bin_saved (done ++ done2) (m1, t1)); [now left|exact HZ]|].
        intros r w [-> HW]. eapply wp_conseq; [apply (collate_bin_saved ((done ++ done2) ++ [((m1, t1), lit "cens")]) (m1, t1)); [right; now left|exact HW]|].
        intros r v [-> HV]. exists (done2 ++ [((m1, t1), lit "cens"); ((m1, t1), lit "sats")]), ms.
        split; [reflexivity|]. split; [|rewrite <- !app_assoc in HV; exact HV].
        rewrite EM. unfold items_at. cbn [flat_map app]. now rewrite <- app_assoc.
      + exists [], (bin_masses t1 n_m). rewrite app_nil_r. auto.
      + intros [u|e] z; [|contradiction]. intros (done2 & ms & E & EM & HZ). destruct ms; [|discriminate].
        exists (done ++ done2), ts. split; [reflexivity|]. split; [|exact HZ].
        rewrite EI. unfold items. cbn [flat_map]. rewrite EM. cbn [items_at flat_map]. now rewrite app_nil_r, <- app_assoc.
    - exists [], (points 2 t0 n_t). split; [reflexivity|]. split; [reflexivity|]. now apply saved_nil.
    - intros [u|e] y; [|contradiction]. intros (done & ts & E & EI & HS). destruct ts; [|discriminate].
      cbn [items flat_map] in EI. rewrite app_nil_r in EI. rewrite EI. now destruct u.
  Qed.

  Lemma fresh_none bn : dfind d (out, bn) = None.
  Proof. apply dfind_None. intros f H. now apply (fresh (out, bn) f H). Qed.

  Lemma doomed_subvol p : doomed p -> subvol_file drn p.
  Proof.
    intros (k & _ & E & G). split; [exact E|]. apply glob_spec in G. destruct G as (mid & G & _). rewrite G.
    exists (str_of_int k ++ mid). now rewrite app_nil_r, <- app_assoc.
  Qed.

  Lemma first_digit k : (0 <= k)%Z -> exists d0 rest, (0 <= d0 < 10)%Z /\ str_of_int k = str_of_int d0 ++ rest.
  Proof.
    intros H. unfold str_of_int at 1. destruct (Z.ltb_spec k 0); [lia|].
    destruct (digits_spec k H) as (_ & H1 & H2). destruct (digits k) as [|d0 ds]; [contradiction|].
    inversion H2 as [|? ? Hd _]; subst. exists d0, (map digit_char ds). split; [exact Hd|].
    unfold is_digit in Hd.
    assert (HC : (d0 = 0 \/ d0 = 1 \/ d0 = 2 \/ d0 = 3 \/ d0 = 4 \/ d0 = 5 \/ d0 = 6 \/ d0 = 7 \/ d0 = 8 \/ d0 = 9)%Z) by lia.
    repeat destruct HC as [HC|HC]; subst d0; reflexivity.
  Qed.

  Lemma sample_doomed k b kind : (0 <= k)%Z -> In kind kinds -> doomed (drn, sample_file k b kind).
  Proof.
    intros Hk HK. destruct (first_digit k Hk) as (d0 & rest & Hd & E). exists d0. split; [exact Hd|]. split; [reflexivity|].
    apply glob_spec. exists (rest ++ lit "_" ++ bin_name b kind ++ lit ".txt"). cbn [snd]. split.
    - unfold sample_file. rewrite E, app_nil_r, <- !app_assoc. reflexivity.
    - intros H. apply (sample_no_slash k b kind HK). unfold sample_file. rewrite E. apply in_or_app. right.
      rewrite <- app_assoc. apply in_or_app. now right.
  Qed.
End Collate.
