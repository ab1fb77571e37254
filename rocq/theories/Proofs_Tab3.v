(** A whole collation, and runs of the other functions of the tabulation. *)

From Coq Require Import Reals String Lra Lia List ZArith Bool Ascii Sorted.
From Verif Require Import Model_Num Model_Base Model_Kernels Model_Fitter Model_Outline Model_Utils Model_Data
  Model_MPI Model_Tab Spec_Outline Spec_Tab Proofs_Outline Proofs_Outline2 Proofs_MPI Proofs_MPI3 Proofs_MPI8
  Proofs_MPI9 Proofs_Data5 Proofs_Tab Proofs_Tab2.
Import ListNotations.
Local Open Scope list_scope.

Lemma out_dir_neq drn n_m n_t a b : drn <> get_output_drn drn n_m n_t a b.
Proof.
  intros E. apply (f_equal (@List.length _)) in E. unfold get_output_drn in E. rewrite !app_length in E. cbn in E. lia.
Qed.

Definition mkdir (o : str) (d : disk) : disk := mkDisk (dfiles d) (o :: ddirs d).

(** ** Any disk *)

Lemma collate_failure drn t0 n_m n_t istart iend d :
  let out := get_output_drn drn n_m n_t istart iend in
  wp (fun x => same_outside out d x \/ exists x0, same_outside out d x0 /\ forall p, ~ doomed drn p -> dfind x p = dfind x0 p)
    (collate_subvolume_samples drn t0 n_m n_t istart iend)
    (fun r x => match r with
                | Ok _ => (forall p, doomed drn p -> dfind x p = None) /\
                          (forall p, ~ doomed drn p -> fst p <> out -> dfind x p = dfind d p)
                | Err _ => same_outside out d x end) d.
Proof.
  cbv zeta. set (out := get_output_drn drn n_m n_t istart iend). assert (N := out_dir_neq drn n_m n_t istart iend). fold out in N.
  unfold collate_subvolume_samples. fold out.
  assert (H0 : same_outside out d d) by reflexivity.
  apply wp_bind, wp_lift. destruct (get_t_obs_table t0 n_t) as [ts|e]; [|exact H0].
  apply wp_bind, wp_look. destruct (existsb _ _); [now apply wp_lift|].
  apply wp_bind. apply wp_act; [left; exact H0|]. apply wp_bind.
  assert (W := bins_outside drn out (mkdir out d) ts n_m (mkdir out d) eq_refl).
  unfold wp in W |- *. unfold mkdir in W. destruct (mfor ts _ _) as [[tr x] r]. destruct W as [W1 W2].
  split; [eapply Forall_impl; [|exact W1]; intros a Ha; left; exact Ha|].
  destruct r as [u|e]; [|exact W2].
  assert (V := remove_wp drn (fun y => same_outside out d y \/ exists x0, same_outside out d x0 /\ forall p, ~ doomed drn p -> dfind y p = dfind x0 p) x).
  unfold wp in V. destruct (remove_samples drn x) as [[tr2 y] r2]. destruct V as [V1 (-> & V2 & V3)].
  { intros z Hz. right. exists x. split; [exact W2|exact Hz]. }
  split; [exact V1|]. split; [exact V3|]. intros p Hp Hn. rewrite V2 by exact Hp.
  apply (outside_dfind out); [exact W2|exact Hn].
Qed.

(** If a run fails, it failed before removing anything. *)
Lemma collate_failure_trace drn t0 n_m n_t istart iend d tr d' e :
  let out := get_output_drn drn n_m n_t istart iend in
  collate_subvolume_samples drn t0 n_m n_t istart iend d = (tr, d', Err e) ->
  forall x, In x (d' :: tr) -> same_outside out d x.
Proof.
  cbv zeta. set (out := get_output_drn drn n_m n_t istart iend). assert (N := out_dir_neq drn n_m n_t istart iend). fold out in N.
  intros E.
  assert (H0 : same_outside out d d) by reflexivity.
  assert (W : wp (fun _ => True) (collate_subvolume_samples drn t0 n_m n_t istart iend) (fun _ _ => True) d).
  { unfold wp. rewrite E. split; [|exact I]. apply Forall_forall. auto. }
  clear W.
  unfold collate_subvolume_samples in E. fold out in E.
  destruct (get_t_obs_table t0 n_t) as [ts|e1] eqn:Et.
  2: { rewrite (mbind_pure _ _ d (Err e1)) in E by reflexivity. injection E as <- <- _. intros x [<-|[]]. exact H0. }
  rewrite (mbind_pure _ _ d (Ok ts)) in E by reflexivity.
  rewrite (mbind_pure _ _ d (Ok (existsb (eqb_str out) (ddirs d)))) in E by reflexivity.
  destruct (existsb _ _). { injection E as <- <- _. intros x [<-|[]]. exact H0. }
  unfold mbind at 1 in E. unfold mact at 1 in E. fold (mkdir out d) in E.
  assert (W := bins_outside drn out (mkdir out d) ts n_m (mkdir out d) eq_refl).
  unfold wp in W. unfold mbind at 1 in E.
  destruct (mfor ts _ _) as [[tr1 x1] r1]. destruct W as [W1 W2].
  assert (X1 : Forall (same_outside out d) tr1) by (eapply Forall_impl; [|exact W1]; intros a Ha; exact Ha).
  destruct r1 as [u|e1].
  - assert (V := remove_wp drn (fun _ => True) x1 (fun _ _ => I)). unfold wp in V.
    destruct (remove_samples drn x1) as [[tr2 y] r2]. destruct V as [_ (-> & _)]. discriminate.
  - injection E as <- <- _. intros x [<-|[<-|Hx]]; [exact W2|exact H0|]. rewrite Forall_forall in X1. now apply X1.
Qed.

(** ** A directory of samples *)

Section Run.
  Variables (drn : str) (t0 : R) (n_m n_t : nat) (istart iend : Z) (d : disk).
  Let out := get_output_drn drn (Z.of_nat n_m) (Z.of_nat n_t) istart iend.
  Hypothesis samples : sample_dir d drn (bins t0 n_m n_t).
  Hypothesis fresh : forall p f, In (p, f) (dfiles d) -> fst p <> out.
  Hypothesis new : ~ In out (ddirs d).

  Lemma saved_collated x : saved drn out d (items n_m (points 2 t0 n_t)) x -> collated d x drn out (bins t0 n_m n_t).
  Proof.
    intros (_ & S & _) b kind Hb HK. apply S. now apply items_all.
  Qed.
  Lemma collated_ext x y : (forall bn, dfind x (out, bn) = dfind y (out, bn)) ->
    collated d x drn out (bins t0 n_m n_t) -> collated d y drn out (bins t0 n_m n_t).
  Proof. intros E H b kind Hb HK. rewrite <- E. now apply H. Qed.

  Lemma out_not_doomed bn : ~ doomed drn (out, bn).
  Proof. intros (k & _ & E & _). cbn in E. symmetry in E. revert E. apply out_dir_neq. Qed.

  Definition kept_or_collated (x : disk) : Prop :=
    (forall p, fst p <> out -> dfind x p = dfind d p) \/
    (collated d x drn out (bins t0 n_m n_t) /\ forall p, ~ subvol_file drn p -> fst p <> out -> dfind x p = dfind d p).

  Lemma collate_run : wp kept_or_collated
    (collate_subvolume_samples drn (Fin t0) (Z.of_nat n_m) (Z.of_nat n_t) istart iend)
    (fun r x => r = Ok tt /\ collated d x drn out (bins t0 n_m n_t) /\
      (forall p, subvol_file drn p -> dfind x p = None) /\
      (forall p, ~ subvol_file drn p -> fst p <> out -> dfind x p = dfind d p) /\
      (forall bn f, dfind x (out, bn) = Some f -> exists b kind, In b (bins t0 n_m n_t) /\ In kind kinds /\ bn = bin_file b kind)) d.
  Proof.
    assert (N : drn <> out) by apply out_dir_neq.
    unfold collate_subvolume_samples. fold out. apply wp_bind, wp_lift. rewrite times_points.
    apply wp_bind, wp_look.
    assert (E : existsb (eqb_str out) (ddirs d) = false).
    { destruct (existsb _ _) eqn:E; [|reflexivity]. exfalso. apply new. apply existsb_exists in E.
      destruct E as (o & Ho & E). apply eqb_str_eq in E. now subst. }
    rewrite E. apply wp_bind. fold (mkdir out d). apply wp_act; [left; reflexivity|].
    assert (K : forall x, outside out x = outside out d -> forall p, fst p <> out -> dfind x p = dfind d p).
    { intros x Hx p Hp. now apply (outside_dfind out). }
    apply wp_bind.
    assert (W := bins_saved drn out d N t0 n_m n_t samples (mkdir out d) eq_refl (fresh_none out d fresh)).
    unfold wp in W |- *. fold (mkdir out d). destruct (mfor _ _ _) as [[tr x] r]. destruct W as [W1 [-> W2]].
    split; [eapply Forall_impl; [|exact W1]; intros a Ha; left; now apply K|].
    assert (ND := saved_collated x W2).
    assert (V := remove_wp drn kept_or_collated x). unfold wp in V. destruct (remove_samples drn x) as [[tr2 y] r2].
    assert (SO : forall p, fst p <> out -> dfind x p = dfind d p) by (apply K, W2).
    destruct V as [V1 (-> & V2 & V3)].
    { intros y0 Hy. right. split.
      - eapply collated_ext; [|exact ND]. intros bn. symmetry. apply Hy, out_not_doomed.
      - intros p Hp Ho. rewrite Hy; [now apply SO|]. intros Hd. now apply Hp, doomed_subvol. }
    split; [exact V1|]. split; [reflexivity|]. split; [|split; [|split]].
    - eapply collated_ext; [|exact ND]. intros bn. symmetry. apply V2, out_not_doomed.
    - intros p Hp. destruct (dfind y p) as [f|] eqn:Ef; [|reflexivity]. exfalso.
      assert (Hno : fst p <> out) by (destruct Hp as [-> _]; exact N).
      assert (D : ~ doomed drn p) by (intros HD; rewrite V3 in Ef by exact HD; discriminate).
      rewrite V2, SO in Ef by assumption. apply dfind_In in Ef. destruct samples as [_ S].
      destruct (S p f Ef Hp) as (k & b & kind & rows & Hk & _ & HK & En & _).
      apply D. destruct Hp as [Ed _]. replace p with (drn, sample_file k b kind) by (destruct p; cbn in *; congruence).
      now apply sample_doomed.
    - intros p Hp Ho. rewrite V2; [now apply SO|]. intros Hd. now apply Hp, doomed_subvol.
    - intros bn f Ef. rewrite V2 in Ef by apply out_not_doomed. destruct W2 as (_ & _ & S3).
      destruct (saved_dec (items n_m (points 2 t0 n_t)) bn) as [(b & kind & Hi & Eb)|Hn].
      + exists b, kind. split; [eapply items_bins; exact Hi|]. split; [eapply items_kinds; exact Hi|exact Eb].
      + rewrite S3 in Ef by exact Hn. discriminate.
  Qed.

  (** The rows of one sample are among the tables of its bin. *)
  Lemma row_in_tables k b kind rows r : In kind kinds ->
    dfind d (drn, sample_file k b kind) = Some (Txt rows) -> In r rows ->
    In r (concat (bin_tables d drn (bin_name b kind))).
  Proof.
    intros HK E Hr. apply dfind_In in E. apply in_concat. exists rows. split; [|exact Hr].
    unfold bin_tables. apply in_map_iff. exists ((drn, sample_file k b kind), Txt rows). split; [reflexivity|].
    apply filter_In. split; [exact E|]. cbn [fst]. rewrite <- glob_of_bin by now apply sample_no_slash.
    rewrite eqb_str_refl. apply glob_spec. exists (str_of_int k). split; [reflexivity|].
    apply int_no_char. not_char.
  Qed.

  Lemma row_collated x k b kind rows r : In b (bins t0 n_m n_t) -> In kind kinds -> collated d x drn out (bins t0 n_m n_t) ->
    dfind d (drn, sample_file k b kind) = Some (Txt rows) -> In r rows ->
    exists a, dfind x (out, bin_file b kind) = Some (Npy a) /\ In r (rows2 a).
  Proof.
    intros Hb HK HC E Hr. pose proof (row_in_tables k b kind rows r HK E Hr) as H.
    rewrite (HC b kind Hb HK). destruct (bin_tables d drn (bin_name b kind)) as [|tb tbs]; [contradiction|].
    eexists. split; [reflexivity|]. exact H.
  Qed.
End Run.

(** ** A file that is no sample *)

Definition stray : str := lit "subvol_7_diffmah_fits.h5".

Lemma stray_glob l t c : glob (lit "subvol_") (bin_suffix l t c) stray = false.
Proof.
  destruct (glob _ _ _) eqn:E; [|reflexivity]. apply glob_spec in E. destruct E as (mid & E & _).
  apply (f_equal (fun s => last s " "%char)) in E. unfold bin_suffix in E. rewrite !app_assoc in E.
  rewrite (app_assoc _ _ (lit ".txt")) in E || idtac.
  replace (lit ".txt") with (lit ".tx" ++ ["t"%char]) in E by reflexivity.
  rewrite ?app_assoc in E. rewrite last_last in E. cbn in E. discriminate.
Qed.

Lemma collate_nothing drn out l t c d : dglob drn (lit "subvol_") (bin_suffix l t c) d = [] ->
  collate_bin drn out l t c d = ([], d, Ok tt).
Proof. intros E. unfold collate_bin. rewrite (mbind_pure _ _ d (Ok [])) by (unfold mlook; now rewrite E). reflexivity. Qed.

Lemma mfor_nothing {A} (l : list A) (f : A -> M unit) d : (forall a, In a l -> f a d = ([], d, Ok tt)) ->
  mfor l f d = ([], d, Ok tt).
Proof.
  induction l as [|a l IH]; intros H; [reflexivity|]. cbn [mfor]. rewrite (mbind_pure _ _ d (Ok tt)) by (apply H; now left).
  apply IH. intros b Hb. apply H. now right.
Qed.

Lemma stray_removed drn c t0 n_m n_t istart iend :
  let d := mkDisk [((drn, stray), c)] [] in
  exists tr d', collate_subvolume_samples drn (Fin t0) (Z.of_nat n_m) (Z.of_nat n_t) istart iend d = (tr, d', Ok tt) /\
    forall p, dfind d' p = None.
Proof.
  cbv zeta. set (d := mkDisk [((drn, stray), c)] []). unfold collate_subvolume_samples.
  rewrite times_points. set (out := get_output_drn drn (Z.of_nat n_m) (Z.of_nat n_t) istart iend).
  rewrite (mbind_pure _ _ d (Ok (map Fin (points 2 t0 n_t)))) by reflexivity.
  rewrite (mbind_pure _ _ d (Ok false)) by reflexivity.
  unfold mbind at 1. unfold mact at 1. fold (mkdir out d).
  rewrite (mbind_pure _ _ (mkdir out d) (Ok tt)).
  2: { apply mfor_nothing. intros t Ht. apply in_map_iff in Ht. destruct Ht as (t1 & <- & _). rewrite masses_points.
    rewrite (mbind_pure _ _ (mkdir out d) (Ok (map Fin (bin_masses t1 n_m)))) by reflexivity.
    apply mfor_nothing. intros m _.
    assert (G : forall kd, dglob drn (lit "subvol_") (bin_suffix m (Fin t1) kd) (mkdir out d) = []).
    { intros kd. unfold dglob, mkdir, d. cbn [dfiles filter fst snd]. now rewrite stray_glob, andb_false_r. }
    rewrite (mbind_pure _ _ (mkdir out d) (Ok tt)) by (now apply collate_nothing). now apply collate_nothing. }
  assert (V := remove_wp drn (fun _ => True) (mkdir out d) (fun _ _ => I)). unfold wp in V.
  destruct (remove_samples drn (mkdir out d)) as [[tr2 y] r2]. destruct V as [_ (-> & V2 & V3)].
  eexists _, y. split; [reflexivity|]. intros p.
  destruct (eqb_path p (drn, stray)) eqn:E.
  - apply eqb_path_eq in E. subst p. apply V3. exists 7%Z. split; [lia|]. split; [reflexivity|]. reflexivity.
  - assert (D : ~ doomed drn p \/ doomed drn p -> dfind y p = None).
    { intros [D|D]; [|now apply V3]. rewrite V2 by exact D. unfold dfind, mkdir, d. cbn [dfiles find fst]. now rewrite E. }
    destruct (dfind y p) as [f|] eqn:Ef; [|reflexivity].
    assert (ND : ~ doomed drn p) by (intros HD; rewrite V3 in Ef by exact HD; discriminate).
    discriminate (D (or_introl ND)).
Qed.
