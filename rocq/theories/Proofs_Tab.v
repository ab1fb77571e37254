(** Files, names and runs of the tabulation scripts. *)

From Coq Require Import Reals String Lra Lia List ZArith Bool Ascii.
From Verif Require Import Model_Num Model_Base Model_Kernels Model_Fitter Model_Outline Model_Utils Model_Data
  Model_MPI Model_Tab Spec_Outline Spec_Tab Proofs_Outline Proofs_Outline2 Proofs_MPI Proofs_MPI3.
Import ListNotations.
Local Open Scope list_scope.

(** ** Names *)

Lemma incl_chars (s t : str) : forallb (fun a => existsb (Ascii.eqb a) t) s = true -> incl s t.
Proof.
  intros H a Ha. rewrite forallb_forall in H. specialize (H a Ha). apply existsb_exists in H.
  destruct H as (b & Hb & E). apply Ascii.eqb_eq in E. now subst.
Qed.

Lemma in_chars c (t : str) : existsb (Ascii.eqb c) t = true -> In c t.
Proof. intros H. apply (incl_chars [c]); [cbn; now rewrite H|now left]. Qed.

Lemma digit_in d : is_digit d -> In (digit_char d) (lit "0123456789").
Proof.
  intros H. unfold is_digit in H.
  assert (HC : (d = 0 \/ d = 1 \/ d = 2 \/ d = 3 \/ d = 4 \/ d = 5 \/ d = 6 \/ d = 7 \/ d = 8 \/ d = 9)%Z) by lia.
  repeat destruct HC as [HC|HC]; subst d; apply in_chars; reflexivity.
Qed.

Definition number_chars : str := lit "0123456789-.infa".

Lemma number_digits ds c : Forall is_digit ds -> In c (map digit_char ds) -> In c number_chars.
Proof.
  intros H Hc. apply in_map_iff in Hc. destruct Hc as (d & <- & Hd). rewrite Forall_forall in H.
  apply (incl_chars (lit "0123456789")); [reflexivity|]. now apply digit_in, H.
Qed.

Lemma number_int z c : In c (str_of_int z) -> In c number_chars.
Proof.
  unfold str_of_int. destruct (Z.ltb_spec z 0).
  - destruct (digits_spec (- z)) as (_ & _ & H1); [lia|]. intros [<-|Hc]; [apply in_chars; reflexivity|]. eapply number_digits; eauto.
  - destruct (digits_spec z) as (_ & _ & H1); [lia|]. now apply number_digits.
Qed.

Lemma number_2f x c : In c (format_2f x) -> In c number_chars.
Proof.
  destruct x as [r| | |]; try (intros H; revert H; apply incl_chars; reflexivity). unfold format_2f. cbv zeta.
  set (m := round_half_even (Rabs r * 100)). intros H. apply in_app_or in H. destruct H as [H|H].
  - destruct (Rlt_dec r 0); [|contradiction]. destruct H as [<-|[]]. apply in_chars; reflexivity.
  - apply in_app_or in H. destruct H as [H|H]; [now apply number_int in H|].
    destruct H as [<-|H]; [apply in_chars; reflexivity|].
    destruct (fixed_spec 2 (m mod 100)) as (_ & _ & F); [apply Z.mod_pos_bound; reflexivity|].
    now apply number_digits in H.
Qed.

Definition name_chars : str := number_chars ++ lit "lgm_t_mah_params.censats".

Lemma bin_name_chars b kind c : In kind kinds -> In c (bin_name b kind) -> In c name_chars.
Proof.
  intros HK. revert c. change (incl (bin_name b kind) name_chars). unfold bin_name.
  assert (N : forall x, incl (format_2f x) name_chars).
  { intros x c Hx. apply in_or_app. left. now apply number_2f in Hx. }
  apply incl_app; [apply incl_chars; reflexivity|]. apply incl_app; [apply N|].
  apply incl_app; [apply incl_chars; reflexivity|]. apply incl_app; [apply N|].
  apply incl_app; [apply incl_chars; reflexivity|].
  destruct HK as [<-|[<-|[]]]; apply incl_chars; reflexivity.
Qed.

Lemma not_in_chars c (t : str) : existsb (Ascii.eqb c) t = false -> ~ In c t.
Proof.
  intros H Hc. assert (X : existsb (Ascii.eqb c) t = true); [|congruence].
  apply existsb_exists. exists c. split; [exact Hc|apply Ascii.eqb_refl].
Qed.

Ltac not_char := apply not_in_chars; reflexivity.

Lemma bin_name_no b kind c : In kind kinds -> ~ In c name_chars -> ~ In c (bin_name b kind).
Proof. intros HK N H. now apply N, (bin_name_chars b kind). Qed.

Lemma int_no_char z c : ~ In c number_chars -> ~ In c (str_of_int z).
Proof. intros N H. now apply N, (number_int z). Qed.

Lemma bin_suffix_name b kind : bin_suffix (Fin (fst b)) (Fin (snd b)) kind = lit "_" ++ bin_name b kind ++ lit ".txt".
Proof. unfold bin_suffix, bin_name. rewrite <- !app_assoc. reflexivity. Qed.

Lemma join_split c s : join_on c (split_on c s) = s.
Proof.
  induction s as [|a s IH]; [reflexivity|]. cbn [split_on].
  destruct (split_on c s) as [|w l] eqn:E.
  - destruct s as [|b s]; cbn in E; [discriminate|]. destruct (split_on c s); [discriminate|destruct (Ascii.eqb b c); discriminate].
  - destruct (Ascii.eqb_spec a c) as [->|N].
    + rewrite <- IH. reflexivity.
    + cbn [join_on] in IH |- *. destruct l as [|w2 l]; [now rewrite <- IH|]. cbn [app]. now rewrite <- IH.
Qed.

Lemma skip_two k rest : join_on "_"%char (skipn 2 (split_on "_"%char (lit "subvol_" ++ str_of_int k ++ lit "_" ++ rest))) = rest.
Proof.
  change (lit "subvol_" ++ str_of_int k ++ lit "_" ++ rest)
    with (lit "subvol" ++ "_"%char :: (str_of_int k ++ "_"%char :: rest)).
  rewrite split_on_cons by not_char.
  rewrite split_on_cons by (apply int_no_char; not_char). cbn [skipn]. apply join_split.
Qed.

Lemma remove_txt s : ~ In "x"%char s -> remove_from (lit ".txt") 0 (s ++ lit ".txt") = s.
Proof.
  induction s as [|c s IH]; intros N; [reflexivity|].
  cbn [app remove_from].
  assert (E : starts_with (lit ".txt") (c :: s ++ lit ".txt") = false).
  { unfold starts_with. destruct (eqb_str _ _) eqn:E; [|reflexivity]. apply eqb_str_eq in E. exfalso.
    destruct s as [|c2 [|c3 s]]; cbn in E; try discriminate. injection E as _ _ -> _. apply N. cbn. tauto. }
  rewrite E, IH; [reflexivity|]. intros H. apply N. now right.
Qed.

Lemma skipn_app_len {A} (a b : list A) : skipn (List.length (a ++ b) - List.length b) (a ++ b) = b.
Proof. rewrite app_length, Nat.add_sub, skipn_app, skipn_all, Nat.sub_diag. reflexivity. Qed.

Lemma npy_bin b kind : In kind kinds -> npy_name (bin_name b kind) = bin_file b kind.
Proof.
  intros HK. unfold npy_name, bin_file.
  assert (E : ends_with (lit ".npy") (bin_name b kind) = false).
  { unfold ends_with, bin_name. rewrite !app_assoc.
    assert (L : List.length (lit ".npy") = List.length kind) by (destruct HK as [<-|[<-|[]]]; reflexivity).
    rewrite L, skipn_app_len. destruct HK as [<-|[<-|[]]]; reflexivity. }
  now rewrite E.
Qed.

(** The name under which the samples of a bin are collated. *)
Lemma out_name k b kind : In kind kinds ->
  npy_name (remove_from (lit ".txt") 0 (join_on "_"%char (skipn 2 (split_on "_"%char (sample_file k b kind))))) = bin_file b kind.
Proof.
  intros HK. unfold sample_file. rewrite skip_two, remove_txt; [now apply npy_bin|].
  apply bin_name_no; [exact HK|]. not_char.
Qed.

Lemma sample_no_slash k b kind : In kind kinds -> ~ In "/"%char (sample_file k b kind).
Proof.
  intros HK H. unfold sample_file in H.
  apply in_app_or in H. destruct H as [H|H]; [revert H; not_char|].
  apply in_app_or in H. destruct H as [H|H]; [revert H; apply int_no_char; not_char|].
  apply in_app_or in H. destruct H as [H|H]; [revert H; not_char|].
  apply in_app_or in H. destruct H as [H|H]; [|revert H; not_char].
  revert H. apply bin_name_no; [exact HK|]. not_char.
Qed.

Lemma starts_iff pre s : starts_with pre s = true <-> begins pre s.
Proof.
  unfold starts_with, begins. rewrite eqb_str_eq. split.
  - intros E. exists (skipn (List.length pre) s). rewrite <- E at 1. symmetry. apply firstn_skipn.
  - intros (r & ->). rewrite firstn_app, firstn_all, Nat.sub_diag. cbn. apply app_nil_r.
Qed.
Lemma ends_iff suf s : ends_with suf s = true <-> exists r, s = r ++ suf.
Proof.
  unfold ends_with. rewrite eqb_str_eq. split.
  - intros E. exists (firstn (List.length s - List.length suf) s). rewrite <- E at 2. symmetry. apply firstn_skipn.
  - intros (r & ->). apply skipn_app_len.
Qed.

(** glob against the specification's test *)
Lemma glob_of_bin drn name bn : ~ In "/"%char bn ->
  (eqb_str drn drn && glob (lit "subvol_") (lit "_" ++ name ++ lit ".txt") bn)%bool = of_bin drn name (drn, bn).
Proof.
  intros N. unfold of_bin. cbn [fst snd]. rewrite eqb_str_refl. cbn [andb].
  remember (lit "_" ++ name ++ lit ".txt") as suf eqn:Es.
  assert (L : List.length suf = (1 + List.length name + 4)%nat).
  { subst suf. rewrite !app_length. reflexivity. }
  rewrite <- L. clear L Es. remember (lit "subvol_") as pre eqn:Ep.
  assert (L : List.length pre = 7%nat) by (subst pre; reflexivity). rewrite <- L. clear L Ep.
  apply eq_iff_eq_true. rewrite glob_spec, !andb_true_iff, starts_iff, ends_iff, Nat.leb_le. split.
  - intros (mid & -> & _). split; [split|].
    + now exists (mid ++ suf).
    + exists (pre ++ mid). now rewrite <- app_assoc.
    + rewrite !app_length. lia.
  - intros ((H1 & H2) & H3). destruct H1 as (r & ->). destruct H2 as (q & E). rewrite app_length in H3.
    assert (S : skipn (List.length (pre ++ r) - List.length suf) (pre ++ r) = suf).
    { rewrite E. apply skipn_app_len. }
    rewrite skipn_app, app_length in S. rewrite (skipn_all2 pre) in S by lia. cbn [app] in S.
    replace (List.length pre + List.length r - List.length suf - List.length pre)%nat
      with (List.length r - List.length suf)%nat in S by lia.
    exists (firstn (List.length r - List.length suf) r). split.
    + f_equal. rewrite <- S at 2. symmetry. apply firstn_skipn.
    + intros H. apply N. apply in_or_app. right. rewrite <- (firstn_skipn (List.length r - List.length suf) r).
      apply in_or_app. now left.
Qed.

(** ** Disks *)

Lemma dfind_dput_eq d p c : dfind (dput p c d) p = Some c.
Proof.
  unfold dfind, dput, ddel. cbn [dfiles]. induction (dfiles d) as [|e l IH]; cbn [filter app find].
  - cbn [fst snd]. now rewrite eqb_path_refl.
  - destruct (eqb_path p (fst e)) eqn:E; cbn [negb]; [exact IH|]. cbn [app find]. now rewrite E.
Qed.
Lemma dfind_del_neq d p q : p <> q -> dfind (ddel p d) q = dfind d q.
Proof.
  intros N. unfold dfind, ddel. cbn [dfiles]. induction (dfiles d) as [|e l IH]; [reflexivity|]. cbn [filter find].
  destruct (eqb_path p (fst e)) eqn:E; cbn [negb find].
  - apply eqb_path_eq in E. subst p. rewrite (eqb_path_neq q (fst e)) by congruence. exact IH.
  - destruct (eqb_path q (fst e)); [reflexivity|exact IH].
Qed.
Lemma dfind_app_neq l p c q dirs : p <> q -> dfind (mkDisk (l ++ [(p, c)]) dirs) q = dfind (mkDisk l dirs) q.
Proof.
  intros N. unfold dfind. cbn [dfiles]. induction l as [|e l IH]; cbn [app find fst].
  - now rewrite (eqb_path_neq q p) by congruence.
  - destruct (eqb_path q (fst e)); [reflexivity|exact IH].
Qed.
Lemma dfind_dput_neq d p c q : p <> q -> dfind (dput p c d) q = dfind d q.
Proof.
  intros N. unfold dput. rewrite dfind_app_neq by exact N.
  rewrite <- (dfind_del_neq d p q N). reflexivity.
Qed.
Lemma dfind_del_eq d p : dfind (ddel p d) p = None.
Proof.
  unfold dfind, ddel. cbn [dfiles]. induction (dfiles d) as [|e l IH]; [reflexivity|]. cbn [filter].
  destruct (eqb_path p (fst e)) eqn:E; cbn [negb]; [exact IH|]. cbn [find]. now rewrite E.
Qed.
Lemma dfind_In d p f : dfind d p = Some f -> In (p, f) (dfiles d).
Proof.
  unfold dfind. destruct (find _ _) as [e|] eqn:E; [|discriminate]. intros H. injection H as <-.
  apply find_some in E. destruct E as [Hin E]. apply eqb_path_eq in E. subst p. now destruct e.
Qed.
Lemma dfind_None d p : dfind d p = None <-> forall f, ~ In (p, f) (dfiles d).
Proof.
  unfold dfind. destruct (find _ _) as [e|] eqn:E.
  - split; [discriminate|]. intros H. apply find_some in E. destruct E as [Hin E]. apply eqb_path_eq in E. subst p.
    exfalso. apply (H (snd e)). now destruct e.
  - split; [|reflexivity]. intros _ f Hin. apply (find_none _ _ E) in Hin. cbn in Hin. now rewrite eqb_path_refl in Hin.
Qed.
Lemma dfind_unique d p f : NoDup (map fst (dfiles d)) -> In (p, f) (dfiles d) -> dfind d p = Some f.
Proof.
  unfold dfind. induction (dfiles d) as [|e l IH]; intros ND Hin; [contradiction|]. cbn [map] in ND.
  inversion ND as [|? ? Nin ND']; subst. cbn [find]. destruct Hin as [->|Hin].
  - cbn [fst snd]. now rewrite eqb_path_refl.
  - destruct (eqb_path p (fst e)) eqn:E; [|now apply IH].
    apply eqb_path_eq in E. subst p. exfalso. apply Nin. apply in_map_iff. now exists (fst e, f).
Qed.

(** The files of [d] that are not in [out], in order. *)
Definition outside (out : str) (d : disk) : list (path * content) :=
  filter (fun e : path * content => negb (eqb_str (fst (fst e)) out)) (dfiles d).

Lemma outside_dput out bn c d : outside out (dput (out, bn) c d) = outside out d.
Proof.
  unfold outside, dput, ddel. cbn [dfiles]. rewrite filter_app. cbn [filter fst]. rewrite eqb_str_refl. cbn [negb].
  rewrite app_nil_r. induction (dfiles d) as [|e l IH]; [reflexivity|]. cbn [filter].
  destruct (eqb_path (out, bn) (fst e)) eqn:E; cbn [negb].
  - apply eqb_path_eq in E. destruct e as [pe ce]. cbn [fst] in *. subst pe. cbn [fst]. rewrite eqb_str_refl. cbn [negb]. exact IH.
  - cbn [filter]. destruct (negb _); [f_equal|]; exact IH.
Qed.

Lemma eqb_str_neq a b : a <> b -> eqb_str a b = false.
Proof. intros N. destruct (eqb_str a b) eqn:E; [|reflexivity]. apply eqb_str_eq in E. contradiction. Qed.

Lemma outside_dfind out d d' p : outside out d = outside out d' -> fst p <> out -> dfind d p = dfind d' p.
Proof.
  intros E N.
  assert (X : forall d, dfind d p = dfind (mkDisk (outside out d) []) p).
  { clear d d' E. intros d. unfold dfind, outside. cbn [dfiles]. induction (dfiles d) as [|e l IH]; [reflexivity|]. cbn [filter find].
    destruct (eqb_str (fst (fst e)) out) eqn:Eo; cbn [negb find].
    - apply eqb_str_eq in Eo. destruct (eqb_path p (fst e)) eqn:Ep; [|exact IH]. apply eqb_path_eq in Ep. subst p. contradiction.
    - destruct (eqb_path p (fst e)); [reflexivity|exact IH]. }
  rewrite (X d), (X d'), E. reflexivity.
Qed.

Lemma dglob_outside out drn pre suf d d' : drn <> out -> outside out d = outside out d' ->
  dglob drn pre suf d = dglob drn pre suf d'.
Proof.
  intros N E.
  assert (X : forall d, dglob drn pre suf d = dglob drn pre suf (mkDisk (outside out d) [])).
  { clear d d' E. intros d. unfold dglob, outside. cbn [dfiles]. f_equal. induction (dfiles d) as [|e l IH]; [reflexivity|]. cbn [filter].
    destruct (eqb_str (fst (fst e)) out) eqn:Eo; cbn [negb filter].
    - apply eqb_str_eq in Eo. rewrite (eqb_str_neq (fst (fst e)) drn) by congruence. cbn [andb]. exact IH.
    - rewrite IH. reflexivity. }
  rewrite (X d), (X d'), E. reflexivity.
Qed.

(** ** Runs *)

(** [m] run on [d] makes only disks satisfying [I] and ends as [Q] says. *)
Definition wp {A} (I : disk -> Prop) (m : M A) (Q : res A -> disk -> Prop) (d : disk) : Prop :=
  let '(tr, d', r) := m d in Forall I tr /\ Q r d'.

Lemma wp_conseq {A} (I : disk -> Prop) (m : M A) (Q Q' : res A -> disk -> Prop) d :
  wp I m Q d -> (forall r x, Q r x -> Q' r x) -> wp I m Q' d.
Proof. unfold wp. destruct (m d) as [[tr d'] r]. intros [H1 H2] H. auto. Qed.
Lemma wp_lift {A} (I : disk -> Prop) (r : res A) (Q : res A -> disk -> Prop) d : Q r d -> wp I (mlift r) Q d.
Proof. intros H. split; [constructor|exact H]. Qed.
Lemma wp_ret {A} (I : disk -> Prop) (a : A) (Q : res A -> disk -> Prop) d : Q (Ok a) d -> wp I (mret a) Q d.
Proof. intros H. split; [constructor|exact H]. Qed.
Lemma wp_look {A} (I : disk -> Prop) (f : disk -> A) (Q : res A -> disk -> Prop) d : Q (Ok (f d)) d -> wp I (mlook f) Q d.
Proof. intros H. split; [constructor|exact H]. Qed.
Lemma wp_act (I : disk -> Prop) f (Q : res unit -> disk -> Prop) d : I (f d) -> Q (Ok tt) (f d) -> wp I (mact f) Q d.
Proof. intros H1 H2. split; [repeat constructor; exact H1|exact H2]. Qed.
Lemma wp_bind {A B} (I : disk -> Prop) (m : M A) (k : A -> M B) (Q : res B -> disk -> Prop) d :
  wp I m (fun r d1 => match r with Ok a => wp I (k a) Q d1 | Err e => Q (Err e) d1 end) d -> wp I (mbind m k) Q d.
Proof.
  unfold wp, mbind. destruct (m d) as [[tr d1] [a|e]]; intros [H1 H2]; [|auto].
  destruct (k a d1) as [[tr2 d2] r]. destruct H2 as [H2 H3]. split; [|exact H3]. now apply Forall_app.
Qed.
Lemma wp_for {A} (I : disk -> Prop) (J : list A -> disk -> Prop) (E : exn -> disk -> Prop) (f : A -> M unit) l : forall d,
  (forall a rest d, (exists pre, l = pre ++ a :: rest) -> J (a :: rest) d ->
     wp I (f a) (fun r d' => match r with Ok _ => J rest d' | Err e => E e d' end) d) ->
  J l d -> wp I (mfor l f) (fun r d' => match r with Ok _ => J [] d' | Err e => E e d' end) d.
Proof.
  induction l as [|a l IH]; intros d H HJ; cbn [mfor]; [now apply wp_ret|].
  apply wp_bind. eapply wp_conseq; [apply H; [now exists []|exact HJ]|].
  intros [u|e] x Hx; [|exact Hx]. apply IH; [|exact Hx].
  intros b rest d1 (pre & ->). apply H. now exists (a :: pre).
Qed.
