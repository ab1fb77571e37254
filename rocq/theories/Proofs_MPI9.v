(** Scattering, Last Journey in terms of its subvolumes, and its tables merged. *)

From Coq Require Import Reals Lra Lia List ZArith Bool Ascii String FunctionalExtensionality.
From Verif Require Import Model_Num Model_Base Model_Kernels Model_Adam Model_Fitter Model_Outline
  Model_Utils Model_Data Model_MPI Spec_Kernels Spec_Fitter Spec_Outline Spec_MPI Proofs_Fitter Proofs_Fitter2 Proofs_Outline
  Proofs_Outline2 Props_Outline Spec_Data Proofs_Data Proofs_MPI Proofs_MPI2 Proofs_MPI3 Proofs_MPI4 Proofs_MPI5 Proofs_MPI6 Proofs_MPI7 Proofs_MPI8.
Import ListNotations.
Local Open Scope list_scope.

(** ** Scattering rows *)

Section Scatter.
  Context (eager : nat -> nat -> msg -> bool) (n : nat).

  Lemma idle_race_free {A} (ps : nat -> prog A) f :
    (forall i, (i < n)%nat -> within (foot [idle] i) (ps i)) -> race_free n (start ps f).
  Proof.
    intros H. apply (phases_race_free n _ [idle]).
    - repeat constructor. apply exclusive_idle.
    - exact H.
  Qed.

  Lemma scatter_runs rows root f : (root < n)%nat ->
    every_run eager n (start (fun i => scatter_nd (rows i) i n root (fun mine => Exit (Ok mine))) f) (fun s =>
      all_return n s (fun i => nth i (parts n (rows root)) []) /\ no_messages s /\ fs s = f).
  Proof.
    intros Hr. assert (Hn : (0 < n)%nat) by lia.
    destruct (scatter_star eager n rows root (parts n (rows root)) (fun _ mine => Exit (Ok mine))
      (fun i => scatter_nd (rows i) i n root (fun mine => Exit (Ok mine))) f Hr (parts_split n _ Hn) (fun _ _ => eq_refl)) as (ps & A1 & S1).
    apply (every_run_like_one _ _ _ (mkState ps quiet f)).
    - apply idle_race_free. intros i Hi. apply within_scatter. intros x. exact I.
    - exact S1.
    - apply stopped. intros i Hi. eexists. exact (A1 i Hi).
    - refine (conj A1 (conj (fun _ _ _ => eq_refl) eq_refl)).
  Qed.

  Lemma load_runs load tarr mahs f : (0 < n)%nat -> load = Ok (tarr, mahs) ->
    every_run eager n (start (fun i => load_mahs_per_rank load i n (fun t mine => Exit (Ok (t, mine)))) f) (fun s =>
      all_return n s (fun i => (tarr, nth i (parts n mahs) [])) /\ no_messages s /\ fs s = f).
  Proof.
    intros Hn EL.
    destruct (load_star eager n (fun _ => load) tarr mahs (parts n mahs) (fun _ t mine => Exit (Ok (t, mine)))
      (fun i => load_mahs_per_rank load i n (fun t mine => Exit (Ok (t, mine)))) f Hn EL (parts_split n _ Hn) (fun _ _ => eq_refl)) as (ps & A1 & S1).
    apply (every_run_like_one _ _ _ (mkState ps quiet f)).
    - apply idle_race_free. intros i Hi. apply within_load. intros x y. exact I.
    - exact S1.
    - apply stopped. intros i Hi. eexists. exact (A1 i Hi).
    - refine (conj A1 (conj (fun _ _ _ => eq_refl) eq_refl)).
  Qed.

  (** The root fails to load: nobody ever gets anything, the other ranks wait for ever. *)
  Lemma load_stuck load e f : (0 < n)%nat -> load = Err e ->
    every_run eager n (start (fun i => load_mahs_per_rank load i n (fun t mine => Exit (Ok (t, mine)))) f) (fun s =>
      procs s 0%nat = Exit (Err e) /\ (forall i r, (i < n)%nat -> procs s i <> Exit (Ok r)) /\ fs s = f).
  Proof.
    intros Hn EL. subst load.
    set (main := fun i => load_mahs_per_rank (Err e) i n (fun t mine => Exit (Ok (t, mine)) : prog (list xr * list (list xr)))).
    assert (E0 : main 0%nat = Exit (Err e)) by reflexivity.
    assert (E1 : forall i, (0 < i)%nat -> exists k, main i = Recv 0 P2P k).
    { intros i Hi. unfold main, load_mahs_per_rank, scatter_nd. destruct (Nat.eqb_spec i 0); [lia|]. eexists. reflexivity. }
    apply (every_run_like_one _ _ _ (start main f)).
    - apply idle_race_free. intros i Hi. apply within_load. intros x y. exact I.
    - apply star_refl.
    - intros s' H. inversion H as [s i p c Hi X|s i p g Hi X|s ks H0 X]; subst; cbn [start procs chan fs] in X.
      + destruct (Nat.eq_dec i 0) as [->|N]; [rewrite E0 in X; discriminate|].
        destruct (E1 i ltac:(lia)) as (k & Ek). rewrite Ek in X. discriminate.
      + destruct (Nat.eq_dec i 0) as [->|N]; [rewrite E0 in X; discriminate|].
        destruct (E1 i ltac:(lia)) as (k & Ek). rewrite Ek in X. discriminate.
      + specialize (X 0%nat Hn). rewrite E0 in X. discriminate.
    - cbn [start procs fs]. refine (conj E0 (conj _ eq_refl)). intros i r Hi.
      destruct (Nat.eq_dec i 0) as [->|N]; [rewrite E0; discriminate|].
      destruct (E1 i ltac:(lia)) as (k & Ek). rewrite Ek. discriminate.
  Qed.
End Scatter.

(** ** Last Journey *)

Section LastJourney.
  Context (eager : nat -> nat -> msg -> bool) (n : nat) (Hn : (0 < n)%nat).
  Context (fitter : list xr -> list xr -> res FitResult) (load : Z -> Z -> res (list xr * list (list xr))) (outdir : str).
  Context (nchunks : Z).
  Let w := List.length (str_of_int nchunks).

  Lemma lastjourney_items subvols i : lastjourney_main fitter load outdir nchunks subvols n i =
    run_items n fitter load outdir w i (items_of (zrange 0 nchunks) subvols) (Exit (Ok tt)).
  Proof. unfold lastjourney_main. cbv zeta. apply subvol_jobs_items. Qed.

  Lemma jobs_done frs l f (jobs : Z -> Z -> Prop) : nonneg l -> (forall s c, In (Some (s, c)) l <-> jobs s c) ->
    chunks_done w outdir jobs frs f (fold_left (after outdir w frs) l f).
  Proof.
    intros HP HJ. destruct (jobs_disk eager n load outdir w frs l HP f) as (D1 & D2 & D3). refine (conj _ (conj _ _)).
    - intros s c H. eexists. split; [apply D1; now apply HJ|]. apply table_of_spec.
    - intros s c b H Hb. apply (D2 s c b); [now apply HJ|exact Hb].
    - intros d b H. apply D3. intros s c Hin. apply H. now apply HJ.
  Qed.

  Lemma lastjourney_finished frs subvols f :
    (forall s c, In s subvols -> (0 <= c < nchunks)%Z -> good n fitter load frs s c) ->
    every_run eager n (start (lastjourney_main fitter load outdir nchunks subvols n) f) (fun st =>
      all_return n st (fun _ => tt) /\ no_messages st /\
      chunks_done w outdir (fun s c => In s subvols /\ (0 <= c < nchunks)%Z) frs f (fs st)).
  Proof.
    intros HG.
    replace (lastjourney_main fitter load outdir nchunks subvols n)
      with (fun i => run_items n fitter load outdir w i (items_of (zrange 0 nchunks) subvols) (Exit (Ok tt)))
      by (apply functional_extensionality; intros i; now rewrite lastjourney_items).
    assert (HI : forall s c, In (Some (s, c)) (items_of (zrange 0 nchunks) subvols) <-> In s subvols /\ (0 <= c < nchunks)%Z).
    { intros s c. rewrite items_jobs. now rewrite zrange_nonneg. }
    assert (HP : nonneg (items_of (zrange 0 nchunks) subvols)).
    { intros s c Hin. apply HI in Hin. lia. }
    destruct (items_finished eager n Hn fitter load outdir w frs _ f HP) as [B R].
    { intros s c Hin. apply HI in Hin as [H1 H2]. now apply HG. }
    split; [exact B|]. intros k s' S N. destruct (R k s' S N) as (R1 & R2 & R3).
    refine (conj R1 (conj R2 _)). rewrite R3. now apply jobs_done.
  Qed.

  Lemma zrange_split c : (0 <= c < nchunks)%Z -> zrange 0 nchunks = zrange 0 c ++ c :: zrange (c + 1) nchunks.
  Proof.
    intros H. unfold zrange. replace (Z.to_nat (nchunks - 0)) with (Z.to_nat (c - 0) + S (Z.to_nat (nchunks - (c + 1))))%nat by lia.
    rewrite seq_app, map_app. f_equal. cbn [seq map]. f_equal; [lia|].
    rewrite <- seq_shift, map_map. replace (0 + Z.to_nat (c - 0))%nat with (Z.to_nat c) by lia.
    replace (seq (Z.to_nat c)) with (seq (Z.to_nat c + 0)) by (f_equal; lia).
    generalize (Z.to_nat (nchunks - (c + 1))). intros m.
    assert (G : forall a, map (fun x => (0 + Z.of_nat (S x))%Z) (seq (Z.to_nat c + a) m) = map (fun i => (c + 1 + Z.of_nat i)%Z) (seq a m)).
    { induction m as [|m IH]; intros a; [reflexivity|]. cbn [seq map]. f_equal; [lia|]. rewrite <- IH. now rewrite Nat.add_succ_r. }
    apply G.
  Qed.

  Lemma items_upto before s later c : (0 <= c < nchunks)%Z -> exists l l',
    items_of (zrange 0 nchunks) (before ++ s :: later) = l ++ Some (s, c) :: l' /\
    forall s' c', In (Some (s', c')) l <-> earlier nchunks before s c s' c'.
  Proof.
    intros Hc. pose (g := fun s : Z => map (fun c => Some (s, c)) (zrange 0 nchunks) ++ [@None (Z * Z)]).
    exists (flat_map g before ++ map (fun c => Some (s, c)) (zrange 0 c)), (map (fun c => Some (s, c)) (zrange (c + 1) nchunks) ++ [None] ++ flat_map g later ++ [None]).
    split.
    - unfold items_of. fold g. rewrite flat_map_app. cbn [flat_map]. unfold g at 2. rewrite (zrange_split c Hc) at 1.
      rewrite map_app. cbn [map]. rewrite <- !app_assoc. cbn [app]. reflexivity.
    - intros s' c'. rewrite in_app_iff, in_flat_map. unfold earlier. split.
      + intros [(x & Hx & H)|H].
        * left. apply in_app_or in H as [H|[H|[]]]; [|discriminate]. apply in_map_iff in H as (y & E & Hy). injection E as <- <-.
          split; [exact Hx|]. now apply zrange_nonneg.
        * right. apply in_map_iff in H as (y & E & Hy). injection E as <- <-. split; [reflexivity|]. now apply zrange_nonneg in Hy.
      + intros [[H1 H2]|[-> H2]].
        * left. exists s'. split; [exact H1|]. apply in_or_app. left. apply in_map_iff. exists c'. split; [reflexivity|]. now apply zrange_nonneg.
        * right. apply in_map_iff. exists c'. split; [reflexivity|]. now apply zrange_nonneg.
  Qed.

  Lemma lastjourney_few frs before s later c f frs' : (0 <= c < nchunks)%Z ->
    (forall s' c', earlier nchunks before s c s' c' -> good n fitter load frs s' c') ->
    (exists tarr mahs, load s c = Ok (tarr, mahs) /\ (List.length mahs < 2 * n)%nat /\
      Forall2 (fun m fr => fitter tarr m = Ok fr) mahs frs') ->
    every_run eager n (start (lastjourney_main fitter load outdir nchunks (before ++ s :: later) n) f) (fun st =>
      (exists g, chunks_done w outdir (earlier nchunks before s c) frs f g /\
        not_collated n outdir (chunk_tmp w s c) HEADER (fun fr => get_outline fr None) g frs' st) /\
      forall i r, (i < n)%nat -> procs st i <> Exit (Ok r)).
  Proof.
    intros Hc HG HF. destruct (items_upto before s later c Hc) as (l & l' & E & HI).
    replace (lastjourney_main fitter load outdir nchunks (before ++ s :: later) n)
      with (fun i => run_items n fitter load outdir w i (l ++ Some (s, c) :: l') (Exit (Ok tt)))
      by (apply functional_extensionality; intros i; rewrite lastjourney_items; now rewrite E).
    destruct (items_few eager n Hn fitter load outdir w frs l s c l' f frs') as [B R].
    { intros s' c' Hin. apply HG. now apply HI. }
    { exact HF. }
    split; [exact B|]. intros k s' S N. destruct (R k s' S N) as (R1 & R2). split; [|exact R2].
    exists (fold_left (after outdir w frs) l f). split; [|exact R1]. apply jobs_done; [|exact HI].
    intros s2 c2 Hin. apply HI in Hin. destruct Hin as [[_ ?]|[_ ?]]; lia.
  Qed.

  Lemma lastjourney_failed frs before s later c f m e : (0 <= c < nchunks)%Z ->
    (forall s' c', earlier nchunks before s c s' c' -> good n fitter load frs s' c') ->
    (exists tarr mahs, load s c = Ok (tarr, mahs) /\ In m mahs /\ fitter tarr m = Err e) ->
    every_run eager n (start (lastjourney_main fitter load outdir nchunks (before ++ s :: later) n) f) (fun st =>
      exists g, chunks_done w outdir (earlier nchunks before s c) frs f g /\ failed n outdir (chunk_tmp w s c) g st).
  Proof.
    intros Hc HG HF. destruct (items_upto before s later c Hc) as (l & l' & E & HI).
    replace (lastjourney_main fitter load outdir nchunks (before ++ s :: later) n)
      with (fun i => run_items n fitter load outdir w i (l ++ Some (s, c) :: l') (Exit (Ok tt)))
      by (apply functional_extensionality; intros i; rewrite lastjourney_items; now rewrite E).
    destruct (items_failed eager n Hn fitter load outdir w frs l s c l' f m e) as [B R].
    { intros s' c' Hin. apply HG. now apply HI. }
    { exact HF. }
    split; [exact B|]. intros k s' S N.
    exists (fold_left (after outdir w frs) l f). split; [|exact (R k s' S N)]. apply jobs_done; [|exact HI].
    intros s2 c2 Hin. apply HI in Hin. destruct Hin as [[_ ?]|[_ ?]]; lia.
  Qed.
End LastJourney.

(** Which subvolumes are fitted. *)
Lemma zrange_length a b : List.length (zrange a b) = Z.to_nat (b - a).
Proof. unfold zrange. now rewrite map_length, seq_length. Qed.
Lemma firstn_zrange k a b : (k <= Z.to_nat (b - a))%nat -> firstn k (zrange a b) = zrange a (a + Z.of_nat k).
Proof.
  intros H. unfold zrange. rewrite firstn_map. f_equal. replace (Z.to_nat (a + Z.of_nat k - a)) with k by lia.
  replace (Z.to_nat (b - a)) with (k + (Z.to_nat (b - a) - k))%nat by lia. rewrite seq_app, firstn_app, seq_length, Nat.sub_diag.
  cbn [firstn]. rewrite app_nil_r. rewrite <- (seq_length k 0) at 1. apply firstn_all.
Qed.
Lemma subvolumes_all num : (0 <= num)%Z -> lastjourney_subvolumes num 0 num = zrange 0 num.
Proof.
  intros H. unfold lastjourney_subvolumes, py_slice, slice_bound, slice. rewrite zrange_length.
  replace (0 <? 0)%Z with false by reflexivity. destruct (Z.ltb_spec num 0); [lia|].
  rewrite ?Z.min_r, ?Z.max_r by lia. replace (Z.to_nat 0) with 0%nat by reflexivity. cbn [skipn]. rewrite firstn_zrange by lia. f_equal. lia.
Qed.
Lemma subvolumes_default num : (0 < num)%Z -> lastjourney_subvolumes num 0 (-1) = zrange 0 (num - 1).
Proof.
  intros H. unfold lastjourney_subvolumes, py_slice, slice_bound, slice. rewrite zrange_length.
  replace (0 <? 0)%Z with false by reflexivity. replace (-1 <? 0)%Z with true by reflexivity.
  rewrite ?Z.min_r, ?Z.max_r by lia. replace (Z.to_nat 0) with 0%nat by reflexivity. cbn [skipn]. rewrite firstn_zrange by lia. f_equal. lia.
Qed.

(** ** Merged tables of fits *)

Lemma column_unique x key c c' : column_of x key c -> column_of x key c' -> c = c'.
Proof. intros H H'. apply column_get_key in H. apply column_get_key in H'. congruence. Qed.

Lemma merged_column hs h key c cols : merged hs h -> In (key, c) h -> Forall2 (fun x col => column_of x key col) hs cols -> joined cols c.
Proof.
  intros [_ HM] Hin HF. destruct (HM key c Hin) as (cols' & HF' & HJ).
  replace cols with cols'; [exact HJ|]. clear HJ Hin HM. revert cols HF. induction HF' as [|x y hs cols' E _ IH]; intros cols HF; inversion HF; subst; [reflexivity|].
  f_equal; [now apply (column_unique x key)|now apply IH].
Qed.
Lemma joined_ints ls c : joined (map IntCol ls) c -> c = IntCol (List.concat ls).
Proof. intros H. apply (joined_unique _ _ _ H). left. now exists ls. Qed.
Lemma joined_floats (ls : list (list xr)) c : ls <> [] -> joined (map FloatCol ls) c -> c = FloatCol (List.concat ls).
Proof.
  intros N H. apply (joined_unique _ _ _ H). right. split.
  - intros (ls' & E). destruct ls, ls'; discriminate || now apply N.
  - now rewrite map_map, map_id.
Qed.

Lemma Forall2_concat {X Y} (R : X -> Y -> Prop) ls ls' : Forall2 (Forall2 R) ls ls' -> Forall2 R (List.concat ls) (List.concat ls').
Proof. induction 1 as [|l l' ls ls' H _ IH]; [constructor|]. cbn [List.concat]. now apply Forall2_app. Qed.

(** One column of several tables, chosen together. *)
Lemma choose_columns {X} (Q : X -> hdf -> Prop) (R : X -> list xr -> Prop) key (xs : list X) hs :
  (forall x h, Q x h -> exists l, column_of h key (FloatCol l) /\ R x l) -> Forall2 Q xs hs ->
  exists ls, Forall2 (fun h col => column_of h key col) hs (map FloatCol ls) /\ Forall2 R xs ls.
Proof.
  intros HQ HF. induction HF as [|x h xs hs H _ (ls & I1 & I2)]; [exists []; split; constructor|].
  destruct (HQ x h H) as (l & L1 & L2). exists (l :: ls). split; constructor; auto.
Qed.
Lemma choose_int_columns {X} (Q : X -> hdf -> Prop) (R : X -> list Z -> Prop) key (xs : list X) hs :
  (forall x h, Q x h -> exists l, column_of h key (IntCol l) /\ R x l) -> Forall2 Q xs hs ->
  exists ls, Forall2 (fun h col => column_of h key col) hs (map IntCol ls) /\ Forall2 R xs ls.
Proof.
  intros HQ HF. induction HF as [|x h xs hs H _ (ls & I1 & I2)]; [exists []; split; constructor|].
  destruct (HQ x h H) as (l & L1 & L2). exists (l :: ls). split; constructor; auto.
Qed.

Ltac find_col := (* locate a column by name in an explicit table *)
  match goal with |- column_of ?h ?k _ => apply get_key_column; reflexivity end.

Lemma merged_fits (frss : list (list FitResult)) hs h : frss <> [] -> Forall2 fit_columns frss hs -> merged hs h ->
  fit_columns (List.concat frss) h.
Proof.
  intros N HF HM.
  assert (EK : map fst h = [lit "logm0"; lit "logtc"; lit "early_index"; lit "late_index"; lit "t_peak"; lit "loss"; lit "n_points_per_fit"; lit "fit_algo"]).
  { destruct HM as [(first & rest & -> & E) _]. rewrite E. inversion HF as [|frs ? frss' ? HC _]; subst.
    destruct HC as (l0 & l1 & l2 & l3 & l4 & l5 & ns & -> & _). reflexivity. }
  assert (CF : forall key (g : FitResult -> xr),
    (forall frs t, fit_columns frs t -> exists l, column_of t key (FloatCol l) /\ Forall2 (fun fr x => reads_back (g fr) x) frs l) ->
    forall c, In (key, c) h -> exists l, c = FloatCol l /\ Forall2 (fun fr x => reads_back (g fr) x) (List.concat frss) l).
  { intros key g HQ c Hin. destruct (choose_columns _ _ key frss hs HQ HF) as (ls & L1 & L2).
    exists (List.concat ls). split; [|now apply Forall2_concat].
    apply joined_floats; [|now apply (merged_column hs h key)]. intros ->. inversion L2; subst; now apply N. }
  assert (CI : forall c, In (lit "fit_algo", c) h -> c = IntCol (map code_used (List.concat frss))).
  { intros c Hin. destruct (choose_int_columns fit_columns (fun frs l => l = map code_used frs) (lit "fit_algo") frss hs) with (2 := HF) as (ls & L1 & L2).
    - intros frs t (l0 & l1 & l2 & l3 & l4 & l5 & ns & -> & _). eexists. split; [find_col|reflexivity].
    - rewrite (joined_ints ls c) by (now apply (merged_column hs h (lit "fit_algo"))). rewrite concat_map. f_equal. f_equal.
      clear - L2. induction L2; [reflexivity|]. cbn [map]. now rewrite H, IHL2. }
  assert (CN : forall c, In (lit "n_points_per_fit", c) h -> exists ns, c = IntCol (map Z.of_nat ns) /\
    Forall2 (fun fr n => count_below_last xlt (log_mah_target (loss_data fr)) n) (List.concat frss) ns).
  { intros c Hin. destruct (choose_int_columns fit_columns (fun frs l => exists ns, l = map Z.of_nat ns /\
      Forall2 (fun fr n => count_below_last xlt (log_mah_target (loss_data fr)) n) frs ns) (lit "n_points_per_fit") frss hs) with (2 := HF) as (ls & L1 & L2).
    - intros frs t (l0 & l1 & l2 & l3 & l4 & l5 & ns & -> & _ & _ & _ & _ & _ & _ & Hns). eexists. split; [find_col|]. now exists ns.
    - rewrite (joined_ints ls c) by (now apply (merged_column hs h (lit "n_points_per_fit"))).
      assert (X : exists nss, ls = map (map Z.of_nat) nss /\
        Forall2 (Forall2 (fun fr n => count_below_last xlt (log_mah_target (loss_data fr)) n)) frss nss).
      { clear - L2. induction L2 as [|frs l frss ls (ns & -> & H) _ (nss & -> & I)]; [exists []; split; [reflexivity|constructor]|].
        exists (ns :: nss). split; [reflexivity|now constructor]. }
      destruct X as (nss & -> & X). exists (List.concat nss). rewrite concat_map. split; [reflexivity|now apply Forall2_concat]. }
  assert (HH : exists c0 c1 c2 c3 c4 c5 c6 c7, h = [(lit "logm0", c0); (lit "logtc", c1); (lit "early_index", c2); (lit "late_index", c3);
    (lit "t_peak", c4); (lit "loss", c5); (lit "n_points_per_fit", c6); (lit "fit_algo", c7)]).
  { clear - EK. do 8 (destruct h as [|[? ?] h]; [discriminate|]). destruct h; [|discriminate].
    cbn [map fst] in EK. injection EK as -> -> -> -> -> -> -> ->. do 8 eexists. reflexivity. }
  destruct HH as (c0 & c1 & c2 & c3 & c4 & c5 & c6 & c7 & EH).
  destruct (CF (lit "logm0") (fun fr => logm0 (p_best fr))) with (c := c0) as (l0 & -> & H0).
  { intros frs t (l0 & l1 & l2 & l3 & l4 & l5 & ns & -> & X0 & X1 & X2 & X3 & X4 & X5 & _). eexists. split; [find_col|exact X0]. }
  { rewrite EH. now left. }
  destruct (CF (lit "logtc") (fun fr => logtc (p_best fr))) with (c := c1) as (l1 & -> & H1).
  { intros frs t (l0' & l1 & l2 & l3 & l4 & l5 & ns & -> & X0 & X1 & X2 & X3 & X4 & X5 & _). eexists. split; [find_col|exact X1]. }
  { rewrite EH. right; now left. }
  destruct (CF (lit "early_index") (fun fr => early_index (p_best fr))) with (c := c2) as (l2 & -> & H2).
  { intros frs t (l0' & l1' & l2 & l3 & l4 & l5 & ns & -> & X0 & X1 & X2 & X3 & X4 & X5 & _). eexists. split; [find_col|exact X2]. }
  { rewrite EH. do 2 right; now left. }
  destruct (CF (lit "late_index") (fun fr => late_index (p_best fr))) with (c := c3) as (l3 & -> & H3).
  { intros frs t (l0' & l1' & l2' & l3 & l4 & l5 & ns & -> & X0 & X1 & X2 & X3 & X4 & X5 & _). eexists. split; [find_col|exact X3]. }
  { rewrite EH. do 3 right; now left. }
  destruct (CF (lit "t_peak") (fun fr => t_peak (p_best fr))) with (c := c4) as (l4 & -> & H4).
  { intros frs t (l0' & l1' & l2' & l3' & l4 & l5 & ns & -> & X0 & X1 & X2 & X3 & X4 & X5 & _). eexists. split; [find_col|exact X4]. }
  { rewrite EH. do 4 right; now left. }
  destruct (CF (lit "loss") (fun fr => loss_best fr)) with (c := c5) as (l5 & -> & H5).
  { intros frs t (l0' & l1' & l2' & l3' & l4' & l5 & ns & -> & X0 & X1 & X2 & X3 & X4 & X5 & _). eexists. split; [find_col|exact X5]. }
  { rewrite EH. do 5 right; now left. }
  destruct (CN c6) as (ns & -> & H6); [rewrite EH; do 6 right; now left|].
  rewrite (CI c7) in EH by (rewrite EH; do 7 right; now left).
  exists l0, l1, l2, l3, l4, l5, ns. rewrite EH. refine (conj eq_refl (conj H0 (conj H1 (conj H2 (conj H3 (conj H4 (conj H5 H6))))))).
Qed.
