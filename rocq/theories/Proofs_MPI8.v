(** Crashes and restarts of the unchunk script. *)

From Coq Require Import Reals Lra Lia List ZArith Bool Ascii String FunctionalExtensionality.
From Verif Require Import Model_Num Model_Base Model_Kernels Model_Adam Model_Fitter Model_Outline
  Model_Utils Model_Data Model_MPI Spec_Kernels Spec_Fitter Spec_Outline Spec_MPI Proofs_Fitter Proofs_Fitter2 Proofs_Outline
  Proofs_Outline2 Props_Outline Spec_Data Proofs_Data Proofs_MPI Proofs_MPI2 Proofs_MPI3 Proofs_MPI4 Proofs_MPI5 Proofs_MPI7.
Import ListNotations.
Local Open Scope list_scope.

(** ** One rank: what holds at every point of its run *)

Definition disk_only {A} (p : prog A) : Prop :=
  match p with Send _ _ _ _ | Await _ _ _ | Recv _ _ _ | Barrier _ => False | _ => True end.

(** [J] holds now and ever after; when the program ends, [E] holds. *)
Inductive always {A} (J : tree -> Prop) (E : res A -> tree -> Prop) : prog A -> tree -> Prop :=
| always_step : forall p f, J f -> disk_only p -> (forall r, p = Exit r -> E r f) ->
    (forall p' f', disk_step p f = Some (p', f') -> always J E p' f') -> always J E p f.

Lemma always_now {A} (J : tree -> Prop) (E : res A -> tree -> Prop) (p : prog A) f : always J E p f -> J f.
Proof. now inversion 1. Qed.
Lemma always_exit {A} (J : tree -> Prop) (E : res A -> tree -> Prop) (r : res A) f : J f -> E r f -> always J E (Exit r) f.
Proof. intros H1 H2. constructor; [exact H1|exact I| |discriminate]. intros r' X. now injection X as <-. Qed.

Lemma always_steps {A} (J : tree -> Prop) (E : res A -> tree -> Prop) eager k : forall s s' : state A, steps eager 1 k s s' ->
  always J E (procs s 0%nat) (fs s) -> always J E (procs s' 0%nat) (fs s').
Proof.
  induction k as [|k IH]; intros s s' H HA; inversion H as [|? ? s2 ? H1 H2]; subst; [exact HA|].
  apply (IH s2 s' H2). inversion HA as [p f HJ HD HE HS]; subst.
  inversion H1 as [x i p c Hi X|x i p f Hi X|x ks Hn X]; subst; cbn [procs fs].
  - assert (i = 0)%nat by lia. subst i. destruct (procs s 0%nat); try discriminate; destruct HD.
  - assert (i = 0)%nat by lia. subst i. rewrite pset_same. now apply HS.
  - rewrite (X 0%nat ltac:(lia)) in HD. destruct HD.
Qed.

Lemma always_lift {A B} (J : tree -> Prop) (E : res A -> tree -> Prop) (r : res B) (k : B -> prog A) f : J f -> (forall e, r = Err e -> E (Err e) f) ->
  (forall b, r = Ok b -> always J E (k b) f) -> always J E (lift r k) f.
Proof. intros HJ HE HK. destruct r as [b|e]; cbn [lift]; [now apply HK|apply always_exit; auto]. Qed.

Lemma always_load {A} (J : tree -> Prop) (E : res A -> tree -> Prop) fns : forall coll (k : list hdf -> prog A) f, J f ->
  ((exists p, In p fns /\ forall h, f p <> Some (H5 h)) -> E (Err OSError) f) ->
  (forall hs, hold f fns hs -> always J E (k (coll ++ hs)) f) -> always J E (load_chunks fns coll k) f.
Proof.
  induction fns as [|fn fns IH]; intros coll k f HJ HE HK; cbn [load_chunks].
  - rewrite <- (app_nil_r coll). apply HK. constructor.
  - constructor; [exact HJ|exact I|discriminate|]. intros p' f' X. cbn [disk_step] in X. injection X as <- <-.
    destruct (f fn) as [[s|h]|] eqn:Ef.
    + apply always_exit; [exact HJ|]. apply HE. exists fn. split; [now left|]. congruence.
    + apply IH; [exact HJ| |].
      * intros (p & Hp & N). apply HE. exists p. split; [now right|exact N].
      * intros hs HH. rewrite <- app_assoc. apply HK. now constructor.
    + apply always_exit; [exact HJ|]. apply HE. exists fn. split; [now left|]. congruence.
Qed.

Lemma always_put {A} (J : tree -> Prop) (E : res A -> tree -> Prop) p rest : forall done (k : prog A) f, f p = Some (H5 done) ->
  (forall h, J (fset f p (Some (H5 h)))) ->
  always J E k (fset f p (Some (H5 (done ++ rest)))) -> always J E (put_all p rest k) f.
Proof.
  induction rest as [|[key c] rest IH]; intros done k f Hp HJ HK; cbn [put_all].
  - rewrite app_nil_r in HK. replace f with (fset f p (Some (H5 done))); [exact HK|].
    apply functional_extensionality. intros q. unfold fset. destruct (eqb_path q p) eqn:Eq; [|reflexivity].
    apply eqb_path_eq in Eq. now subst.
  - constructor; [|exact I|discriminate|].
    + replace f with (fset f p (Some (H5 done))); [apply HJ|].
      apply functional_extensionality. intros q. unfold fset. destruct (eqb_path q p) eqn:Eq; [|reflexivity].
      apply eqb_path_eq in Eq. now subst.
    + intros p' f' X. cbn [disk_step] in X. rewrite Hp in X. injection X as <- <-.
      apply (IH (done ++ [(key, c)])).
      * apply fset_same.
      * intros h. rewrite fset_twice. apply HJ.
      * rewrite fset_twice, <- app_assoc. exact HK.
Qed.

Lemma always_write {A} (J : tree -> Prop) (E : res A -> tree -> Prop) p h (k : prog A) f : J f -> (forall h, J (fset f p (Some (H5 h)))) ->
  always J E k (fset f p (Some (H5 h))) -> always J E (Create p (put_all p h k)) f.
Proof.
  intros HJ HW HK. constructor; [exact HJ|exact I|discriminate|]. intros p' f' X. cbn [disk_step] in X. injection X as <- <-.
  apply (always_put J E p h []); [apply fset_same| |].
  - intros h'. rewrite fset_twice. apply HW.
  - rewrite fset_twice. exact HK.
Qed.

(** ** Merging *)

Lemma get_key_column x key c : get_key x key = Ok c -> column_of x key c.
Proof.
  unfold get_key. destruct (find (fun kc => eqb_str (fst kc) key) x) as [[k' c']|] eqn:Ef; [|discriminate].
  intros X. injection X as <-. revert Ef. induction x as [|[k1 c1] x IH]; cbn [find fst]; [discriminate|].
  destruct (eqb_str k1 key) eqn:Ek.
  - intros X. injection X as <- <-. apply eqb_str_eq in Ek. subst k1. exists [], x. split; [reflexivity|intros []].
  - intros X. destruct (IH X) as (l1 & l2 & -> & N). exists ((k1, c1) :: l1), l2. split; [reflexivity|].
    cbn [map fst]. intros [E|H]; [|contradiction]. subst k1. assert (eqb_str key key = true) by (now apply eqb_str_eq). congruence.
Qed.
Lemma column_get_key x key c : column_of x key c -> get_key x key = Ok c.
Proof.
  intros (l1 & l2 & -> & N). unfold get_key. induction l1 as [|[k1 c1] l1 IH]; cbn [app find fst].
  - assert (eqb_str key key = true) by (now apply eqb_str_eq). now rewrite H.
  - destruct (eqb_str k1 key) eqn:Ek; [apply eqb_str_eq in Ek; exfalso; apply N; now left|].
    apply IH. intros H. apply N. now right.
Qed.

Lemma collect_spec {B} (l : list (res B)) r : collect l = Ok r <-> Forall2 (fun x y => x = Ok y) l r.
Proof.
  revert r. induction l as [|x l IH]; intros r; cbn [collect].
  - split; intros H; [injection H as <-; constructor|now inversion H].
  - destruct x as [b|e]; cbn [bind]; [|split; [discriminate|intros H; inversion H; discriminate]].
    destruct (collect l) as [bs|e] eqn:Ec; cbn [bind].
    + split.
      * intros H. injection H as <-. constructor; [reflexivity|]. now apply IH.
      * intros H. inversion H as [|? y ? ys E F]; subst. injection E as ->. apply IH in F. injection F as ->. reflexivity.
    + split; [discriminate|]. intros H. inversion H as [|? y ? ys E F]; subst. apply IH in F. discriminate.
Qed.

Lemma joined_concat cols : joined cols (concat_columns cols).
Proof.
  unfold joined, concat_columns.
  assert (X : forallb is_int cols = true <-> exists ls, cols = map IntCol ls).
  { split.
    - intros H. exists (map ints cols). induction cols as [|[l|l] cols IH]; cbn in *; try discriminate; [reflexivity|]. now rewrite <- IH.
    - intros (ls & ->). induction ls; [reflexivity|]. exact IHls. }
  destruct (forallb is_int cols) eqn:E.
  - left. exists (map ints cols). split; [|reflexivity].
    clear X. induction cols as [|[l|l] cols IH]; cbn in *; try discriminate; [reflexivity|]. now rewrite <- IH.
  - right. split; [rewrite <- X; discriminate|]. reflexivity.
Qed.
Lemma joined_unique cols c c' : joined cols c -> joined cols c' -> c = c'.
Proof.
  intros [(ls & E & ->)|[N ->]] [(ls' & E' & ->)|[N' ->]]; try reflexivity.
  - rewrite E in E'. f_equal. f_equal. revert ls' E'. clear. induction ls as [|l ls IH]; intros [|l' ls'] H; try discriminate; [reflexivity|].
    cbn in H. injection H as -> H. f_equal. now apply IH.
  - exfalso. apply N'. now exists ls.
  - exfalso. apply N. now exists ls'.
Qed.

Lemma Forall2_map_both {X Y} (g : X -> res Y) l r : Forall2 (fun x y => x = Ok y) (map g l) r <-> Forall2 (fun x y => g x = Ok y) l r.
Proof.
  revert r. induction l as [|x l IH]; intros r; cbn [map]; split; intros H; inversion H; subst; constructor; auto; now apply IH.
Qed.

Lemma merge_merged hs h : merge_chunks hs = Ok h -> merged hs h.
Proof.
  unfold merge_chunks. destruct hs as [|first rest]; [discriminate|]. cbn [index nth_error bind].
  intros H. apply collect_spec in H. apply (proj1 (Forall2_map_both _ _ _)) in H. split.
  - exists first, rest. split; [reflexivity|]. revert H. generalize (first :: rest). intros hs H.
    enough (G : forall ks, Forall2 (fun key y => (let* l := collect (map (fun x => get_key x key) hs) in Ok (key, concat_columns l)) = Ok y) ks h ->
      map fst h = ks) by (exact (G _ H)).
    clear H. intros ks H. induction H as [|key [k c] l1 l2 E _ IH]; [reflexivity|].
    cbn [map fst]. rewrite IH. destruct (collect _) as [l|e]; cbn [bind] in E; [|discriminate]. congruence.
  - intros key c Hin. revert H. generalize (first :: rest). intros hs H.
    induction H as [|key0 [k c0] l1 l2 E _ IH]; [destruct Hin|].
    destruct Hin as [Hin|Hin]; [|now apply IH]. injection Hin as -> ->.
    destruct (collect (map (fun x => get_key x key0) hs)) as [cols|e] eqn:Ec; cbn [bind] in E; [|discriminate].
    injection E as -> <-. exists cols. split; [|apply joined_concat].
    apply collect_spec in Ec. apply (proj1 (Forall2_map_both _ _ _)) in Ec. clear - Ec. induction Ec; constructor; auto. now apply get_key_column.
Qed.

Lemma merge_ok first rest : (forall x, In x rest -> forall key, In key (map fst first) -> In key (map fst x)) ->
  exists h, merge_chunks (first :: rest) = Ok h.
Proof.
  intros H. unfold merge_chunks. cbn [index nth_error bind].
  assert (G : forall keys, (forall key, In key keys -> In key (map fst first)) ->
    exists h, collect (map (fun key => let* l := collect (map (fun x => get_key x key) (first :: rest)) in Ok (key, concat_columns l)) keys) = Ok h).
  { induction keys as [|key keys IH]; intros HK; [now exists []|]. rewrite map_cons. cbn [collect].
    assert (G1 : forall l, (forall x, In x l -> In key (map fst x)) -> exists cols, collect (map (fun x => get_key x key) l) = Ok cols).
    { clear. induction l as [|x l IH]; intros HX; [now exists []|]. cbn [map collect].
      assert (E : exists c, get_key x key = Ok c).
      { specialize (HX x (or_introl eq_refl)). apply in_map_iff in HX as ([k c] & Ek & Hin). cbn in Ek. subst k.
        unfold get_key. destruct (find (fun kc => eqb_str (fst kc) key) x) as [[k c']|] eqn:Ef; [now eexists|].
        eapply find_none in Ef; [|exact Hin]. cbn in Ef. assert (eqb_str key key = true) by (now apply eqb_str_eq). congruence. }
      destruct E as (c & Ec). rewrite Ec. cbn [bind]. destruct IH as (cols & E); [intros y Hy; apply HX; now right|].
      rewrite E. now eexists. }
    destruct (G1 (first :: rest)) as (cols & Ec).
    { intros x [<-|Hx]; [apply HK; now left|]. apply H; [exact Hx|]. apply HK. now left. }
    rewrite Ec. cbn [bind].
    destruct IH as (h & E); [intros k Hk; apply HK; now right|]. rewrite E. now eexists. }
  apply (G (map fst first)). auto.
Qed.

(** ** Names *)

Lemma nchar_20 : List.length (str_of_int 20) = 2%nat.
Proof. reflexivity. Qed.

Lemma chunk_files_model indir s : map (fun c => (indir, fits_name s c 2)) (zrange 0 20) = chunk_files indir s.
Proof. reflexivity. Qed.

Lemma in_chunk_files indir s p : In p (chunk_files indir s) -> exists c, (0 <= c)%Z /\ p = (indir, chunk_name 2 s c ++ lit ".hdf5").
Proof. unfold chunk_files. rewrite in_map_iff. intros (k & <- & _). exists (Z.of_nat k). split; [lia|reflexivity]. Qed.

Lemma no_underscore_hdf5 : ~ In "_"%char (lit ".hdf5").
Proof. cbn. intuition discriminate. Qed.

Lemma chunk_files_disjoint indir s s' p : In p (chunk_files indir s) -> In p (chunk_files indir s') -> s = s'.
Proof.
  intros H H'. apply in_chunk_files in H as (c & Hc & ->). apply in_chunk_files in H' as (c' & Hc' & E).
  apply (f_equal snd) in E. cbn [snd] in E. now apply chunk_name_inj in E as [-> _]; try apply no_underscore_hdf5.
Qed.

Lemma merged_words s : split_on "_"%char (lit "subvol_" ++ str_of_int s ++ lit "_diffmah_fits.hdf5") =
  [lit "subvol"; str_of_int s; lit "diffmah"; lit "fits.hdf5"].
Proof.
  replace (lit "subvol_" ++ str_of_int s ++ lit "_diffmah_fits.hdf5") with
    (join_on "_"%char [lit "subvol"; str_of_int s; lit "diffmah"; lit "fits.hdf5"]).
  - apply split_on_join; [discriminate|].
    repeat apply Forall_cons; try apply Forall_nil; try (cbn; intuition discriminate); try (apply int_no, unsafe_underscore).
  - cbn [join_on lit list_ascii_of_string app]. repeat (rewrite <- app_assoc; cbn [app]). reflexivity.
Qed.
Lemma merged_file_inj outdir s s' : merged_file outdir s = merged_file outdir s' -> s = s'.
Proof.
  intros E. apply (f_equal snd) in E. cbn [merged_file snd] in E. apply (f_equal (split_on "_"%char)) in E.
  rewrite !merged_words in E. injection E as E. now apply str_of_int_inj.
Qed.
Lemma chunk_not_merged indir outdir s s' p : In p (chunk_files indir s) -> p <> merged_file outdir s'.
Proof.
  intros H E. apply in_chunk_files in H as (c & _ & ->). apply (f_equal snd) in E. cbn [merged_file snd] in E.
  apply (f_equal (split_on "_"%char)) in E. rewrite merged_words, chunk_name_split in E by apply no_underscore_hdf5.
  discriminate.
Qed.
Lemma chunk_files_nodup indir s : NoDup (chunk_files indir s).
Proof.
  unfold chunk_files. apply FinFun.Injective_map_NoDup; [|apply seq_NoDup].
  intros a b E. apply (f_equal snd) in E. cbn [snd] in E. apply chunk_name_inj in E as [_ E]; try lia. apply no_underscore_hdf5.
Qed.

(** ** The invariant *)

Section Unchunk.
  Context (indir outdir : str) (f0 : tree).

  Definition intact (f : tree) (s : Z) : Prop := forall p, In p (chunk_files indir s) -> f p = f0 p.
  Definition complete (f : tree) (s : Z) : Prop :=
    exists hs h, hold f0 (chunk_files indir s) hs /\ f (merged_file outdir s) = Some (H5 h) /\ merged hs h.
  Definition J (f : tree) : Prop :=
    (forall s p, In p (chunk_files indir s) -> f p = f0 p \/ f p = None) /\
    (forall s, intact f s \/ complete f s) /\
    (forall q, (forall s, ~ In q (chunk_files indir s) /\ q <> merged_file outdir s) -> f q = f0 q).

  Lemma J_start : J f0.
  Proof. split; [auto|]. split; [left; intros p _; reflexivity|reflexivity]. Qed.

  Lemma hold_f0 f s hs : J f -> hold f (chunk_files indir s) hs -> intact f s /\ hold f0 (chunk_files indir s) hs.
  Proof.
    intros [J1 _] H.
    assert (HI : intact f s).
    { intros p Hp. destruct (J1 s p Hp) as [E|E]; [exact E|]. exfalso. unfold hold in H. revert Hp H. generalize (chunk_files indir s).
      intros ps Hp H. induction H as [|q h ps hs Eq _ IH]; [destruct Hp|]. destruct Hp as [->|Hp]; [congruence|now apply IH]. }
    split; [exact HI|]. unfold hold in *. unfold intact in HI. revert HI H. generalize (chunk_files indir s). intros ps HI H.
    induction H as [|q h ps hs Eq _ IH]; constructor.
    - rewrite <- HI; [exact Eq|now left].
    - apply IH. intros p Hp. apply HI. now right.
  Qed.

  Lemma J_write f s o : J f -> intact f s -> J (fset f (merged_file outdir s) o).
  Proof.
    intros (J1 & J2 & J3) HI.
    assert (HC : forall s' p, In p (chunk_files indir s') -> fset f (merged_file outdir s) o p = f p).
    { intros s' p Hp. apply fset_other. now apply (chunk_not_merged indir outdir s'). }
    split; [|split].
    - intros s' p Hp. rewrite (HC s' p Hp). now apply (J1 s').
    - intros s'. destruct (Z.eq_dec s' s) as [->|N].
      + left. intros p Hp. rewrite (HC s p Hp). now apply HI.
      + destruct (J2 s') as [H|(hs & h & H1 & H2 & H3)].
        * left. intros p Hp. rewrite (HC s' p Hp). now apply H.
        * right. exists hs, h. refine (conj H1 (conj _ H3)). rewrite fset_other; [exact H2|].
          intros E. now apply N, (merged_file_inj outdir).
    - intros q Hq. rewrite fset_other by (apply Hq). now apply J3.
  Qed.

  Lemma J_unlink f s p : J f -> In p (chunk_files indir s) -> complete f s -> J (fset f p None).
  Proof.
    intros (J1 & J2 & J3) Hp HC.
    assert (HM : forall s', fset f p None (merged_file outdir s') = f (merged_file outdir s')).
    { intros s'. apply fset_other. intros E. now apply (chunk_not_merged indir outdir s s' p Hp). }
    split; [|split].
    - intros s' q Hq. unfold fset. destruct (eqb_path q p); [now right|now apply (J1 s')].
    - intros s'. destruct (Z.eq_dec s' s) as [->|N].
      + right. destruct HC as (hs & h & H1 & H2 & H3). exists hs, h. now rewrite HM.
      + destruct (J2 s') as [H|(hs & h & H1 & H2 & H3)].
        * left. intros q Hq. rewrite fset_other; [now apply H|]. intros ->. now apply N, (chunk_files_disjoint indir s' s p).
        * right. exists hs, h. now rewrite HM.
    - intros q Hq. rewrite fset_other; [now apply J3|]. intros ->. now apply (proj1 (Hq s)).
  Qed.

  Lemma complete_write f s h s' : complete f s' -> s' <> s -> complete (fset f (merged_file outdir s) (Some (H5 h))) s'.
  Proof.
    intros (hs & h' & H1 & H2 & H3) N. exists hs, h'. refine (conj H1 (conj _ H3)). rewrite fset_other; [exact H2|].
    intros E. now apply N, (merged_file_inj outdir).
  Qed.
  Lemma complete_unlink f s p s' : In p (chunk_files indir s) -> complete f s' -> complete (fset f p None) s'.
  Proof.
    intros Hp (hs & h & H1 & H2 & H3). exists hs, h. refine (conj H1 (conj _ H3)). rewrite fset_other; [exact H2|].
    intros E. now apply (chunk_not_merged indir outdir s s' p Hp).
  Qed.

  (** Removal *)
  Lemma always_remove (E : res unit -> tree -> Prop) fns : forall f, J f ->
    (forall p, In p fns -> exists s, In p (chunk_files indir s) /\ complete f s) ->
    (forall f', J f' -> (forall p, In p fns -> f' p = None) -> (forall q, ~ In q fns -> f' q = f q) -> E (Ok tt) f') ->
    (forall f' e, J f' -> ~ (NoDup fns /\ forall p, In p fns -> f p <> None) -> E (Err e) f') ->
    always J E (remove_all fns (Exit (Ok tt))) f.
  Proof.
    induction fns as [|p fns IH]; intros f HJ HC HE HF; cbn [remove_all].
    - apply always_exit; [exact HJ|]. apply HE; [exact HJ|intros p []|reflexivity].
    - constructor; [exact HJ|exact I|discriminate|]. intros p' f' X. cbn [disk_step] in X.
      destruct (HC p (or_introl eq_refl)) as (s & Hp & Hs).
      destruct (f p) as [x|] eqn:Ef; injection X as <- <-.
      + apply IH.
        * now apply (J_unlink f s p).
        * intros q Hq. destruct (HC q (or_intror Hq)) as (s' & Hq' & Hs'). exists s'. split; [exact Hq'|]. now apply (complete_unlink f s p).
        * intros f' HJ' H1 H2. apply HE; [exact HJ'| |].
          -- intros q [<-|Hq]; [|now apply H1]. destruct (in_dec path_eq_dec p fns) as [Hin|Hout]; [now apply H1|].
             rewrite H2 by exact Hout. apply fset_same.
          -- intros q Hq. rewrite H2 by (intros H; apply Hq; now right). apply fset_other. intros ->. apply Hq. now left.
        * intros f' e HJ' N. apply HF; [exact HJ'|]. intros [ND HN]. apply N. inversion ND as [|? ? Np ND']; subst. split; [exact ND'|].
          intros q Hq. rewrite fset_other; [apply HN; now right|]. intros ->. contradiction.
      + apply always_exit; [exact HJ|]. apply HF; [exact HJ|]. intros [_ HN]. apply (HN p (or_introl eq_refl)). exact Ef.
  Qed.

  (** The loop.  [D] are the subvolumes done so far. *)
  Lemma ready_same f f' s : (forall p, In p (chunk_files indir s) -> f' p = f p) -> ready indir f' s -> ready indir f s.
  Proof.
    intros H (first & rest & HH & HK). exists first, rest. split; [|exact HK].
    unfold hold in *. revert H HH. generalize (chunk_files indir s), (first :: rest). intros ps hs H HH.
    induction HH as [|p h ps hs E _ IH]; constructor; [rewrite <- H; [exact E|now left]|]. apply IH. intros q Hq. apply H. now right.
  Qed.
  Lemma hold_same f f' s hs : (forall p, In p (chunk_files indir s) -> f' p = f p) -> hold f' (chunk_files indir s) hs -> hold f (chunk_files indir s) hs.
  Proof.
    unfold hold. generalize (chunk_files indir s). intros ps H HH.
    induction HH as [|p h ps hs E _ IH]; constructor; [rewrite <- H; [exact E|now left]|]. apply IH. intros q Hq. apply H. now right.
  Qed.
  Lemma hold_unique f ps : forall hs hs', hold f ps hs -> hold f ps hs' -> hs = hs'.
  Proof.
    unfold hold. induction ps as [|p ps IH]; intros hs hs' H H'; inversion H; inversion H'; subst; [reflexivity|].
    f_equal; [congruence|now apply IH].
  Qed.
  Lemma hold_in f ps hs p : hold f ps hs -> In p ps -> f p <> None.
  Proof. unfold hold. induction 1 as [|q h ps hs E _ IH]; [intros []|]. intros [->|Hp]; [congruence|now apply IH]. Qed.
  Lemma hold_missing f p ps hs : In p ps -> (forall h, f p <> Some (H5 h)) -> ~ hold f ps hs.
  Proof. unfold hold. intros Hp N H. revert Hp. induction H as [|q h ps hs E _ IH]; [intros []|]. intros [->|Hp]; [now apply N in E|now apply IH]. Qed.

  Definition merged_from (f f' : tree) (s : Z) : Prop :=
    exists hs h, hold f (chunk_files indir s) hs /\ f' (merged_file outdir s) = Some (H5 h) /\ merged hs h.

  Lemma always_loop {A} (E : res A -> tree -> Prop) (k : list path -> prog A) f1 subvols : forall D del f, J f ->
    (forall p, In p del -> exists s, In s D /\ In p (chunk_files indir s)) ->
    (forall s, In s D -> complete f s /\ merged_from f1 f s) ->
    (forall q, (forall s, In s D -> q <> merged_file outdir s) -> f q = f1 q) ->
    (forall f' e, J f' -> (exists s, In s subvols /\ ~ ready indir f1 s) ->
       (forall q, (forall s, In s D \/ In s subvols -> q <> merged_file outdir s) -> f' q = f1 q) -> E (Err e) f') ->
    (forall f', J f' -> (forall s, In s D \/ In s subvols -> complete f' s /\ merged_from f1 f' s) ->
       (forall q, (forall s, In s D \/ In s subvols -> q <> merged_file outdir s) -> f' q = f1 q) ->
       always J E (k (del ++ flat_map (chunk_files indir) subvols)) f') ->
    always J E (unchunk_loop indir outdir 20 2 subvols del k) f.
  Proof.
    induction subvols as [|s l IH]; intros D del f HJ HD HC HU HE HK.
    - cbn [unchunk_loop]. rewrite <- (app_nil_r del). apply HK; [exact HJ| |].
      + intros s [H|[]]. now apply HC.
      + intros q Hq. apply HU. intros s Hs. apply Hq. now left.
    - cbn [unchunk_loop]. rewrite chunk_files_model.
      assert (HF : forall p, In p (chunk_files indir s) -> f p = f1 p).
      { intros p Hp. apply HU. intros s' _. now apply (chunk_not_merged indir outdir s). }
      assert (HU1 : forall q, (forall s0, In s0 D \/ In s0 (s :: l) -> q <> merged_file outdir s0) -> f q = f1 q).
      { intros q Hq. apply HU. intros s' Hs'. apply Hq. now left. }
      apply always_load; [exact HJ| |].
      + intros (p & Hp & N). apply HE; [exact HJ| |exact HU1]. exists s. split; [now left|].
        intros (first & rest & HH & _). apply (hold_missing f1 p _ _ Hp) in HH; [exact HH|]. intros h. rewrite <- HF by exact Hp. apply N.
      + intros hs HH. cbn [app]. destruct (hold_f0 f s hs HJ HH) as [HI H0].
        assert (H1 : hold f1 (chunk_files indir s) hs).
        { apply (hold_same f1 f); [exact HF|exact HH]. }
        apply always_lift; [exact HJ| |].
        { intros e Ee. apply HE; [exact HJ| |exact HU1]. exists s. split; [now left|].
          intros (first & rest & HH' & HR). rewrite (hold_unique _ _ _ _ H1 HH') in Ee.
          destruct (merge_ok first rest) as (h & Eh); [intros x Hx key Hk; now apply (HR x key)|]. discriminate (eq_trans (eq_sym Eh) Ee). }
        intros h Em.
        change (outdir, unchunk_name s) with (merged_file outdir s).
        apply always_write; [exact HJ|intros h'; now apply J_write|].
        apply merge_merged in Em. apply (IH (s :: D)).
        * now apply J_write.
        * intros p Hp. apply in_app_or in Hp as [Hp|Hp].
          -- destruct (HD p Hp) as (s' & X1 & X2). exists s'. split; [now right|exact X2].
          -- exists s. split; [now left|exact Hp].
        * assert (HS : complete (fset f (merged_file outdir s) (Some (H5 h))) s /\ merged_from f1 (fset f (merged_file outdir s) (Some (H5 h))) s).
          { split; exists hs, h; [exact (conj H0 (conj (fset_same _ _ _) Em))|exact (conj H1 (conj (fset_same _ _ _) Em))]. }
          intros s' Hs'. destruct (Z.eq_dec s' s) as [->|N]; [exact HS|].
          destruct Hs' as [->|Hs']; [contradiction|]. destruct (HC s' Hs') as [C1 (hs' & h' & C2 & C3 & C4)].
          split; [now apply complete_write|]. exists hs', h'. refine (conj C2 (conj _ C4)). rewrite fset_other; [exact C3|].
          intros X. now apply N, (merged_file_inj outdir).
        * intros q Hq. rewrite fset_other by (apply Hq; now left). apply HU. intros s' Hs'. apply Hq. now right.
        * intros f' e HJ' (s' & Hs' & N) X. apply HE; [exact HJ'|exists s'; split; [now right|exact N]|].
          intros q Hq. apply X. intros s2 [[<-|H2]|H2]; apply Hq; [right; now left|now left|right; now right].
        * intros f' HJ' X1 X2. cbn [flat_map] in HK. rewrite app_assoc in HK. apply HK; [exact HJ'| |].
          -- intros s' [Hs'|[<-|Hs']]; apply X1; [left; now right|left; now left|now right].
          -- intros q Hq. apply X2. intros s2 [[<-|Hs2]|Hs2]; apply Hq; [right; now left|now left|right; now right].
  Qed.

  (** What a finished run has done. *)
  Definition outcome (f : tree) (istart iend : Z) (r : res unit) (f' : tree) : Prop :=
    match r with
    | Ok _ =>
        (forall s, (istart <= s < iend)%Z -> merged_from f f' s /\ forall p, In p (chunk_files indir s) -> f' p = None) /\
        (forall q, (forall s, (istart <= s < iend)%Z -> q <> merged_file outdir s /\ ~ In q (chunk_files indir s)) -> f' q = f q)
    | Err _ =>
        (exists s, (istart <= s < iend)%Z /\ ~ ready indir f s) /\
        (forall q, (forall s, (istart <= s < iend)%Z -> q <> merged_file outdir s) -> f' q = f q)
    end.

  Lemma zrange_in a b s : In s (zrange a b) <-> (a <= s < b)%Z.
  Proof.
    unfold zrange. rewrite in_map_iff. split.
    - intros (k & <- & H). apply in_seq in H. lia.
    - intros H. exists (Z.to_nat (s - a)). split; [lia|]. apply in_seq. lia.
  Qed.

  Lemma zrange_nodup a b : NoDup (zrange a b).
  Proof. unfold zrange. apply FinFun.Injective_map_NoDup; [intros x y; lia|apply seq_NoDup]. Qed.

  Lemma NoDup_app_disj {Y} (l l' : list Y) : NoDup l -> NoDup l' -> (forall y, In y l -> ~ In y l') -> NoDup (l ++ l').
  Proof.
    intros H H' D. induction H as [|y l N _ IH]; [exact H'|]. cbn [app]. constructor.
    - intros Hin. apply in_app_or in Hin as [Hin|Hin]; [contradiction|]. apply (D y); [now left|exact Hin].
    - apply IH. intros z Hz. apply D. now right.
  Qed.
  Lemma NoDup_flat {X Y} (g : X -> list Y) l : NoDup l -> (forall x, NoDup (g x)) ->
    (forall x x' y, In y (g x) -> In y (g x') -> x = x') -> NoDup (flat_map g l).
  Proof.
    intros Hl Hg Hd. induction Hl as [|x l N _ IH]; [constructor|]. cbn [flat_map]. apply NoDup_app_disj; [apply Hg|exact IH|].
    intros y Hy Hin. apply in_flat_map in Hin as (x' & Hx' & Hy'). rewrite (Hd x x' y Hy Hy') in N. contradiction.
  Qed.

  Lemma always_main istart iend f : J f -> always J (outcome f istart iend) (unchunk_main indir outdir istart iend) f.
  Proof.
    intros HJ. unfold unchunk_main. cbv zeta. rewrite nchar_20. apply (always_loop _ _ f _ []).
    - exact HJ.
    - intros p [].
    - intros s [].
    - reflexivity.
    - intros f' e _ (s & Hs & N) HU. cbn [outcome]. split; [exists s; split; [now apply zrange_in|exact N]|].
      intros q Hq. apply HU. intros s' [[]|Hs']. apply Hq. now apply zrange_in.
    - intros f' HJ' HC HU. cbn [app].
      assert (HP : forall s p, In s (zrange istart iend) -> In p (chunk_files indir s) -> f' p <> None).
      { intros s p Hs Hp. destruct (HC s (or_intror Hs)) as [_ (hs & h & X1 & _ & _)].
        rewrite HU; [exact (hold_in f (chunk_files indir s) hs p X1 Hp)|]. intros s' _. now apply (chunk_not_merged indir outdir s). }
      apply always_remove; [exact HJ'| | |].
      + intros p Hp. apply in_flat_map in Hp as (s & Hs & Hp). exists s. split; [exact Hp|]. apply HC. now right.
      + intros f2 HJ2 H1 H2. cbn [outcome]. split.
        * intros s Hs. apply zrange_in in Hs. split.
          -- destruct (HC s (or_intror Hs)) as [_ (hs & h & X1 & X2 & X3)]. exists hs, h. refine (conj X1 (conj _ X3)).
             rewrite H2; [exact X2|]. intros Hin. apply in_flat_map in Hin as (s' & _ & Hin).
             now apply (chunk_not_merged indir outdir s' s _ Hin).
          -- intros p Hp. apply H1. apply in_flat_map. now exists s.
        * intros q Hq. rewrite H2; [apply HU|].
          -- intros s [[]|Hs]. apply Hq. now apply zrange_in.
          -- intros Hin. apply in_flat_map in Hin as (s' & Hs' & Hin). apply zrange_in in Hs'. now apply (Hq s' Hs').
      + intros f2 e _ N. exfalso. apply N. split.
        * apply NoDup_flat; [apply zrange_nodup|intros s; apply chunk_files_nodup|]. intros s s' p. apply chunk_files_disjoint.
        * intros p Hp. apply in_flat_map in Hp as (s & Hs & Hp). now apply (HP s).
  Qed.

  Lemma runs_J f : runs_of_unchunk indir outdir f0 f -> J f.
  Proof.
    induction 1 as [|f istart iend k eager s _ IH S]; [apply J_start|].
    apply (always_now _ (outcome f istart iend) (procs s 0%nat)).
    apply (always_steps _ _ eager k _ s S). cbn [start procs fs]. now apply always_main.
  Qed.
End Unchunk.

(** ** Runs end *)

Lemma disk_goes_on {A} (p : prog A) f : disk_only p -> (exists r, p = Exit r) \/ exists p' f', disk_step p f = Some (p', f').
Proof.
  destruct p; cbn [disk_only disk_step]; intros H; try destruct H; try (right; eexists; eexists; reflexivity); [left; now eexists|..];
    right; repeat match goal with |- context [match ?x with _ => _ end] => destruct x end; eexists; eexists; reflexivity.
Qed.

Lemma always_bound {A} (J : tree -> Prop) (E : res A -> tree -> Prop) eager p f : always J E p f ->
  exists bound, forall c ps k s', ps 0%nat = p -> steps eager 1 k (mkState ps c f) s' -> (k <= bound)%nat.
Proof.
  induction 1 as [p f HJ HD HE HS IH].
  destruct (disk_goes_on p f HD) as [(r & ->)|(p' & f' & E')].
  - exists 0%nat. intros c ps k s' Ep H. inversion H as [|? ? s2 ? H1 H2]; subst; [lia|].
    exfalso. revert H1. apply stopped. intros i Hi. assert (i = 0)%nat by lia. subst i. now exists r.
  - destruct (IH p' f' E') as (b & Hb). exists (S b). intros c ps k s' Ep H.
    inversion H as [|k' ? s2 ? H1 H2]; subst; [lia|]. apply le_n_S.
    inversion H1 as [x i q c' Hi X|x i q g Hi X|x ks Hn X]; subst; cbn [procs fs chan] in *.
    + assert (i = 0)%nat by lia. subst i. destruct (ps 0%nat); try discriminate; destruct HD.
    + assert (i = 0)%nat by lia. subst i. rewrite E' in X. injection X as <- <-.
      apply (Hb _ _ k' _ (pset_same _ _ _) H2).
    + rewrite (X 0%nat ltac:(lia)) in HD. destruct HD.
Qed.

Lemma always_runs {A} (J : tree -> Prop) (E : res A -> tree -> Prop) eager p f : always J E p f ->
  every_run eager 1 (start (fun _ => p) f) (fun s => exists r, procs s 0%nat = Exit r /\ E r (fs s)).
Proof.
  intros H. split.
  - destruct (always_bound J E eager p f H) as (b & Hb). exists b. intros k s' S. exact (Hb _ (fun _ => p) k s' eq_refl S).
  - intros k s' S N. apply (always_steps J E) in S; [|exact H]. inversion S as [q g HJ HD HE HS]; subst.
    destruct (disk_goes_on (procs s' 0%nat) (fs s') HD) as [(r & Er)|(p' & f' & E')].
    + exists r. split; [exact Er|]. now apply HE.
    + exfalso. apply (N (mkState (pset (procs s') 0 p') (chan s') f')). apply step_disk; [lia|exact E'].
Qed.
