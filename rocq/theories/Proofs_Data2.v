(** Lemmas about the loaders of mass histories and the HDF5 utilities. *)

From Coq Require Import Reals String Ascii List ZArith Bool Arith Lia Lra Permutation Sorted.
From Verif Require Import Model_Num Model_Base Model_Kernels Model_Utils Model_Adam Model_Fitter Model_Data
  RealAux Spec_Kernels Spec_Utils Spec_Fitter Spec_Data Proofs_Trim Proofs_Fitter Proofs_Data.
Import ListNotations.
Local Open Scope R_scope.

(** ** Loaders of mass histories *)

Lemma xlog10_pos x : 0 < x -> nlog10 (Fin x) = Fin (log10 x).
Proof. intros H. cbn. unfold Reqb, Rltb. destruct (Rlt_dec 0 x); [|lra]. reflexivity. Qed.

Lemma accumulate_cumulative l : cumulative_peak l (maximum_accumulate l).
Proof.
  split; [apply accumulate_length|]. intros j y H.
  destruct (maximum_accumulate_greatest l j) as (z & E & G); [rewrite <- accumulate_length; apply nth_error_Some; congruence|].
  rewrite H in E. now injection E as ->.
Qed.
Lemma cumulative_unique l r : cumulative_peak l r -> r = maximum_accumulate l.
Proof.
  intros [L H]. apply accumulate_unique; [exact L|]. intros j Hj. rewrite <- L in Hj.
  destruct (nth_error r j) as [y|] eqn:E; [|apply nth_error_None in E; lia]. eauto.
Qed.

Lemma running_max_nondecreasing l r : running_max l r -> nondecreasing r.
Proof.
  intros [L H] i j x y Hij Hx Hy. destruct (H i x Hx) as ((k & Hk & K) & _). destruct (H j y Hy) as (_ & M).
  apply (M k x); [lia|exact K].
Qed.

Lemma Forall2_rows {A B} (P : A -> B -> Prop) (f : A -> list xr) l :
  (forall a, In a l -> exists b, P a b) -> exists out, Forall2 P l out.
Proof.
  clear f. induction l as [|a l IH]; intros H; [exists []; constructor|].
  destruct (H a (or_introl eq_refl)) as (b & Hb). destruct IH as (out & Ho); [intros; apply H; now right|].
  exists (b :: out). now constructor.
Qed.

Lemma accumulate_rows t : exists out, map maximum_accumulate (map (map Fin) t) = map (map Fin) out /\ Forall2 running_max t out.
Proof.
  induction t as [|l t IH]; [exists []; split; [reflexivity|constructor]|].
  destruct IH as (out & E & F). destruct (maximum_accumulate_fin l) as (r & Er & Hr).
  exists (r :: out). split; [cbn; now rewrite Er, E|now constructor].
Qed.

Lemma Forall2_map_r {A B C} (P : A -> C -> Prop) (f : B -> C) l l' :
  Forall2 (fun a b => P a (f b)) l l' -> Forall2 P l (map f l').
Proof. induction 1; constructor; auto. Qed.
Lemma Forall2_imp {A B} (P Q : A -> B -> Prop) l l' : (forall a b, P a b -> Q a b) -> Forall2 P l l' -> Forall2 Q l l'.
Proof. intros H. induction 1; constructor; auto. Qed.

Lemma nondecreasing_map f l : (forall x y, In x l -> In y l -> x <= y -> f x <= f y) -> nondecreasing l -> nondecreasing (map f l).
Proof.
  intros Hf H i j x y Hij Hx Hy. rewrite nth_error_map in Hx, Hy.
  destruct (nth_error l i) as [a|] eqn:Ea; [|discriminate]. destruct (nth_error l j) as [b|] eqn:Eb; [|discriminate].
  injection Hx as <-. injection Hy as <-. apply Hf; [eapply nth_error_In; exact Ea|eapply nth_error_In; exact Eb|]. eapply H; eassumption.
Qed.

Lemma map_xdiv_fin h l : h <> 0 -> map (fun m => xdiv m (Fin h)) (map Fin l) = map Fin (map (fun m => m / h) l).
Proof.
  intros Hh. rewrite !map_map. apply map_ext. intros m. cbn. unfold Reqb. destruct (Req_EM_T h 0); [contradiction|reflexivity].
Qed.

Lemma hacc_fin forest h : 0 < h -> exists out, hacc_mahs (map (map Fin) forest) (Fin h) = map (map Fin) out /\
  Forall2 (fun raw row => nondecreasing row /\ running_max raw (map (fun m => m * h) row)) forest out.
Proof.
  intros Hh. destruct (accumulate_rows forest) as (out & E & F). exists (map (map (fun m => m / h)) out).
  unfold hacc_mahs. rewrite E. split.
  - rewrite !map_map. apply map_ext. intros l. apply map_xdiv_fin. lra.
  - apply Forall2_map_r. eapply Forall2_imp; [|exact F]. intros raw r Hr. cbn. split.
    + apply nondecreasing_map; [|eapply running_max_nondecreasing; exact Hr]. intros x y _ _ H.
      apply Rmult_le_compat_r; [left; now apply Rinv_0_lt_compat|exact H].
    + rewrite map_map. rewrite (map_ext _ (fun m => m)) by (intros; field; lra). now rewrite map_id.
Qed.

Lemma clip_fin m : xmin (xmax (Fin m) (Fin 1)) PInf = Fin (Rmax m 1).
Proof. rewrite xmax_fin. reflexivity. Qed.

Lemma Rmax_mono a b c : a <= b -> Rmax a c <= Rmax b c.
Proof. intros H. apply Rmax_lub; [eapply Rle_trans; [exact H|apply Rmax_l]|apply Rmax_r]. Qed.

Lemma bpl_fin ids masses t tl : last_is t tl -> 0 < tl ->
  exists out, load_bpl_mah_data ids (map (map Fin) masses) (map Fin t) = Ok (ids, map (map Fin) out, map Fin t, Fin 10, Fin (log10 tl)) /\
  Forall2 (fun raw row => nondecreasing row /\ (forall m, In m row -> 1 <= m) /\
             exists peak, running_max raw peak /\ row = map (fun m => Rmax m 1) peak) masses out.
Proof.
  intros Hl Hp. destruct (accumulate_rows masses) as (out & E & F). exists (map (map (fun m => Rmax m 1)) out).
  unfold load_bpl_mah_data. rewrite E, (proj2 (getlast_spec (map Fin t) (Fin tl)) (last_map Fin t tl Hl)). cbn [bind].
  split.
  - f_equal. f_equal; [f_equal; f_equal; f_equal|].
    + rewrite !map_map. apply map_ext. intros l. rewrite !map_map. apply map_ext. intros m. apply clip_fin.
    + now apply xlog10_pos.
  - apply Forall2_map_r. eapply Forall2_imp; [|exact F]. intros raw r Hr. cbn. refine (conj _ (conj _ _)).
    + apply nondecreasing_map; [|eapply running_max_nondecreasing; exact Hr]. intros x y _ _. apply Rmax_mono.
    + intros m Hm. apply in_map_iff in Hm. destruct Hm as (x & <- & _). apply Rmax_r.
    + eauto.
Qed.

Lemma tng_mass_fin x : tng_mass (Fin x) = Fin ((if Req_EM_T x 0 then 0 else pow10 x) / H_TNG).
Proof.
  unfold tng_mass. cbn [xeqb]. unfold Reqb. destruct (Req_EM_T x 0); cbn; f_equal; unfold H_TNG; lra.
Qed.
Lemma H_TNG_pos : 0 < / H_TNG.
Proof. apply Rinv_0_lt_compat. unfold H_TNG. lra. Qed.

Lemma fold_xmax_fin l : forall m, fold_left xmax (map Fin l) (Fin m) = Fin (fold_left Rmax l m).
Proof. induction l as [|a l IH]; intros m; [reflexivity|]. cbn [map fold_left]. now rewrite xmax_fin, IH. Qed.
Lemma fold_Rmax_spec l : forall m c, c < fold_left Rmax l m <-> c < m \/ exists x, In x l /\ c < x.
Proof.
  induction l as [|a l IH]; intros m c; cbn; [split; [tauto|intros [H|(x & [] & _)]; exact H]|].
  rewrite IH. split.
  - intros [H|(x & Hx & H)]; [|right; eauto]. unfold Rmax in H. destruct (Rle_dec m a); [right; eauto|now left].
  - intros [H|(x & [<-|Hx] & H)]; [left; eapply Rlt_le_trans; [exact H|apply Rmax_l]|left; eapply Rlt_le_trans; [exact H|apply Rmax_r]|right; eauto].
Qed.

Definition tng_massR (x : R) : R := (if Req_EM_T x 0 then 0 else pow10 x) / H_TNG.
Lemma tng_rows out : map (map tng_mass) (map (map Fin) out) = map (map Fin) (map (map tng_massR) out).
Proof. rewrite !map_map. apply map_ext. intros l. rewrite !map_map. apply map_ext. intros x. apply tng_mass_fin. Qed.

(** The masses, and whether one of them exceeds 1e5. *)
Lemma tng_fin t : exists out, Forall2 running_max t out /\
  load_tng_mahs (map (map Fin) t) =
    match List.concat (map (map tng_massR) out) with
    | [] => Err ValueError
    | m :: ms => if Rltb 100000 (fold_left Rmax ms m) then Ok (map (map Fin) (map (map tng_massR) out)) else Err AssertionError
    end.
Proof.
  destruct (accumulate_rows t) as (out & E & F). exists out. split; [exact F|]. unfold load_tng_mahs. rewrite E, tng_rows.
  rewrite <- concat_map. destruct (List.concat (map (map tng_massR) out)) as [|m ms]; [reflexivity|].
  cbn [map]. rewrite fold_xmax_fin. reflexivity.
Qed.

Lemma tng_massR_mono x y : 0 <= x -> x <= y -> tng_massR x <= tng_massR y.
Proof.
  intros H0 H. unfold tng_massR, Rdiv. apply Rmult_le_compat_r; [left; apply H_TNG_pos|].
  destruct (Req_EM_T x 0); destruct (Req_EM_T y 0); try lra.
  - left. apply pow10_pos.
  - now apply pow10_le.
Qed.

Lemma running_max_In l r x : running_max l r -> In x r -> In x l.
Proof.
  intros [L H] Hx. apply In_nth_error in Hx. destruct Hx as (i & Hi). destruct (H i x Hi) as ((k & _ & K) & _).
  eapply nth_error_In; exact K.
Qed.

Definition pub_logR (m : R) : R := if Req_EM_T m 0 then 0 else log10 m.
Lemma pub_fin l : (forall m, In m l -> 0 <= m) -> exists peak, running_max l peak /\ pub_log_mah (map Fin l) = map Fin (map pub_logR peak).
Proof.
  intros Hl. destruct (maximum_accumulate_fin l) as (r & Er & Hr). exists r. split; [exact Hr|].
  unfold pub_log_mah. rewrite Er, !map_map. apply map_ext_in. intros m Hm. pose proof (Hl m (running_max_In _ _ _ Hr Hm)) as P.
  cbn [xeqb]. unfold Reqb, pub_logR. destruct (Req_EM_T m 0) as [E|E]; [reflexivity|].
  apply xlog10_pos. lra.
Qed.
Lemma pub_logR_mono x y : x = 0 \/ 1 <= x -> y = 0 \/ 1 <= y -> x <= y -> pub_logR x <= pub_logR y.
Proof.
  intros Hx Hy H. unfold pub_logR. destruct (Req_EM_T x 0); destruct (Req_EM_T y 0); try lra.
  - assert (1 <= y) by lra. rewrite <- log10_1. apply log10_le; lra.
  - apply log10_le; lra.
Qed.

(** ** Namedtuples in HDF5 files *)

Lemma save_same {V} (fs : disk V) fn f : save fs fn f fn = Some f.
Proof. unfold save. now rewrite String.eqb_refl. Qed.
Lemma save_other {V} (fs : disk V) fn f n : n <> fn -> save fs fn f n = fs n.
Proof. unfold save. intros H. now rewrite (proj2 (String.eqb_neq n fn) H). Qed.

Lemma distinct_spec l : distinct l = true <-> NoDup l.
Proof.
  induction l as [|s l IH]; cbn; [split; [constructor|reflexivity]|].
  rewrite andb_true_iff, negb_true_iff, IH. split.
  - intros [H N]. constructor; [|exact N]. intros K.
    assert (existsb (String.eqb s) l = true) by (apply existsb_exists; exists s; split; [exact K|apply String.eqb_refl]). congruence.
  - intros H. inversion H; subst. split; [|assumption]. apply not_true_is_false. intros K.
    apply existsb_exists in K. destruct K as (x & Hx & E). apply String.eqb_eq in E. subst. contradiction.
Qed.

Lemma lookup_None {V} k (d : list (string * V)) : lookup k d = None <-> ~ In k (map fst d).
Proof.
  induction d as [|[k' v] d IH]; cbn; [tauto|]. destruct (String.eqb_spec k' k) as [->|N].
  - split; [discriminate|intros H; exfalso; apply H; now left].
  - rewrite IH. tauto.
Qed.
Lemma lookup_app {V} k (d e : list (string * V)) : lookup k (d ++ e)%list = match lookup k d with Some v => Some v | None => lookup k e end.
Proof. induction d as [|[k' v] d IH]; cbn; [reflexivity|]. now destruct (String.eqb k' k). Qed.
Lemma lookup_In {V} k v (d : list (string * V)) : NoDup (map fst d) -> In (k, v) d -> lookup k d = Some v.
Proof.
  induction d as [|[k' v'] d IH]; cbn; [easy|]. intros N [E|H].
  - injection E as -> ->. now rewrite String.eqb_refl.
  - inversion N; subst. destruct (String.eqb_spec k' k) as [->|D]; [|now apply IH].
    exfalso. apply H2. apply (in_map fst) in H. exact H.
Qed.

Lemma create_all {V} (kvs : list (string * V)) : forall d, NoDup (map fst (d ++ kvs)%list) ->
  fold_res create_dataset d kvs = Ok (d ++ kvs)%list.
Proof.
  induction kvs as [|[k v] kvs IH]; intros d N; cbn [fold_res]; [now rewrite app_nil_r|].
  unfold create_dataset at 1. cbn [fst]. assert (L : lookup k d = None).
  { apply lookup_None. intros K. rewrite map_app in N. cbn in N. apply NoDup_remove_2 in N. apply N. apply in_or_app. now left. }
  rewrite L. cbn [bind]. rewrite IH; now rewrite <- app_assoc.
Qed.

Lemma combine_fst {A B} (a : list A) : forall b : list B, length a = length b -> map fst (combine a b) = a.
Proof. induction a; intros [|y b] H; try discriminate; cbn; [reflexivity|]. f_equal. apply IHa. now injection H. Qed.

Lemma read_all {V} (names : list string) : forall (vals pre : list V) (d : list (string * V)),
  length names = length vals ->
  (forall k v, In (k, v) (combine names vals) -> lookup k d = Some v) ->
  fold_res (fun vs pname => match lookup pname d with Some v => Ok (vs ++ [v])%list | None => Err KeyError end) pre names
    = Ok (pre ++ vals)%list.
Proof.
  induction names as [|n names IH]; intros [|v vals] pre d L H; try discriminate; cbn [fold_res]; [now rewrite app_nil_r|].
  rewrite (H n v) by now left. cbn [bind]. rewrite (IH vals); [now rewrite <- app_assoc|now injection L|].
  intros k w K. apply H. now right.
Qed.

Lemma word_ascii c : is_word c = true -> is_ascii c = true.
Proof.
  unfold is_word, is_letter, char_between, is_ascii. intros H. apply Nat.leb_le.
  repeat (apply orb_prop in H; destruct H as [H|H]); try (apply andb_prop in H; destruct H as [_ H]; apply Nat.leb_le in H; lia).
  apply Ascii.eqb_eq in H. subst. cbn. lia.
Qed.
Lemma field_ascii s : is_field_name s = true -> all_chars is_ascii s = true.
Proof.
  destruct s as [|c s]; cbn; [discriminate|]. intros H. apply andb_prop in H. destruct H as [H _]. apply andb_prop in H. destruct H as [H1 H2].
  rewrite word_ascii by (unfold is_word; now rewrite H1). cbn. induction s as [|a s IH]; [reflexivity|]. cbn in *.
  apply andb_prop in H2. destruct H2 as [A B]. now rewrite (word_ascii a A), (IH B).
Qed.

Lemma namedtuple_inv {V} names (vals : list V) p : namedtuple names vals = Ok p ->
  p = mkNamed names vals /\ forallb is_field_name names = true /\ NoDup names /\ length names = length vals.
Proof.
  unfold namedtuple. destruct (forallb is_field_name names) eqn:E1; [|discriminate]. destruct (distinct names) eqn:E2; [|discriminate].
  cbn [andb]. destruct (Nat.eqb (length names) (length vals)) eqn:E3; [|discriminate]. intros H. injection H as <-.
  apply distinct_spec in E2. apply Nat.eqb_eq in E3. auto.
Qed.

Lemma roundtrip {V} (fs : disk V) names vals p fn : namedtuple names vals = Ok p ->
  let w := write_namedtuple_to_hdf5 fs p fn in
  snd w = Ok tt /\ load_namedtuple_from_hdf5 (fst w) fn = Ok p /\ forall other, other <> fn -> fst w other = fs other.
Proof.
  intros H. pose proof H as H'. apply namedtuple_inv in H. destruct H as (-> & F & N & L). cbv zeta.
  unfold write_namedtuple_to_hdf5. cbn [_fields nvalues].
  rewrite (create_all (combine names vals) []) by (cbn; now rewrite combine_fst). cbn [app].
  assert (A : forallb (all_chars is_ascii) names = true).
  { apply forallb_forall. intros s Hs. apply field_ascii. eapply forallb_forall in F; eassumption. }
  rewrite A. cbn [fst snd]. split; [reflexivity|]. split; [|intros other Ho; now apply save_other].
  unfold load_namedtuple_from_hdf5. rewrite save_same. cbn [attr_fields datasets].
  rewrite (read_all names vals []); [exact H'|exact L|].
  intros k v K. apply lookup_In; [now rewrite combine_fst|exact K].
Qed.

(** ** Flat tables *)

Lemma append_assoc a b c : ((a ++ b) ++ c = a ++ (b ++ c))%string.
Proof. induction a; cbn; congruence. Qed.
Lemma append_nil a : (a ++ "" = a)%string.
Proof. induction a; cbn; congruence. Qed.

Lemma split_from_no_slash s : forall cur, ~ In "/"%char (list_ascii_of_string s) -> split_slash_from cur s = [(cur ++ s)%string].
Proof.
  induction s as [|c s IH]; intros cur H; cbn; [now rewrite append_nil|].
  destruct (Ascii.eqb_spec c "/") as [->|N]; [exfalso; apply H; now left|].
  rewrite IH by (intros K; apply H; now right). now rewrite append_assoc.
Qed.
Lemma split_no_slash s : no_slash s -> split_slash s = [s].
Proof. intros [_ H]. unfold split_slash. now rewrite split_from_no_slash. Qed.

Lemma split_from_sep d k : forall cur, split_slash_from cur (d ++ "/" ++ k) = (split_slash_from cur d ++ split_slash_from "" k)%list.
Proof.
  induction d as [|c d IH]; intros cur; cbn; [reflexivity|]. destruct (Ascii.eqb c "/"); [cbn; f_equal; apply IH|apply IH].
Qed.
Lemma split_sep d k : split_slash (d ++ "/" ++ k) = (split_slash d ++ split_slash k)%list.
Proof. apply split_from_sep. Qed.
Lemma split_from_ne s : forall cur, split_slash_from cur s <> [].
Proof. induction s as [|c s IH]; intros cur; cbn; [discriminate|]. destruct (Ascii.eqb c "/"); [discriminate|apply IH]. Qed.

Lemma walk_one {V} (ms : list (string * h5 V)) k rest : k <> ""%string ->
  h5_walk (Group ms) (k :: rest) = match lookup k ms with Some o => h5_walk o rest | None => Err KeyError end.
Proof. destruct k; [congruence|reflexivity]. Qed.

Lemma get_flat {V} (ms : list (string * h5 V)) k : no_slash k ->
  h5_get (Group ms) k = match lookup k ms with Some o => Ok o | None => Err KeyError end.
Proof. intros H. unfold h5_get. rewrite split_no_slash by exact H. rewrite walk_one by apply H. now destruct (lookup k ms). Qed.
Lemma get_nested {V} (ms inner : list (string * h5 V)) d k : no_slash d -> no_slash k -> lookup d ms = Some (Group inner) ->
  h5_get (Group ms) (d ++ "/" ++ k) = match lookup k inner with Some o => Ok o | None => Err KeyError end.
Proof.
  intros Hd Hk L. unfold h5_get. rewrite split_sep, !split_no_slash by assumption. cbn [app].
  rewrite walk_one by apply Hd. rewrite L, walk_one by apply Hk. now destruct (lookup k inner).
Qed.

Lemma dict_set_new {V} (d : list (string * V)) k v : ~ In k (map fst d) -> dict_set d k v = (d ++ [(k, v)])%list.
Proof.
  induction d as [|[k' v'] d IH]; cbn; intros H; [reflexivity|].
  destruct (String.eqb_spec k' k) as [->|N]; [exfalso; apply H; now left|]. now rewrite IH by tauto.
Qed.

(** Reading distinct keys one after the other. *)
Lemma fold_keys {V} (g : string -> res (list V)) (out : string -> res string) (cols : list (string * list V)) (full : string -> string) :
  (forall k l, In (k, l) cols -> out (full k) = Ok k /\ g (full k) = Ok l) ->
  forall d, NoDup (map fst (d ++ cols)%list) ->
  fold_res (fun data key => let* ko := out key in let* v := g key in Ok (dict_set data ko v)) d (map full (map fst cols))
    = Ok (d ++ cols)%list.
Proof.
  intros H. induction cols as [|[k l] cols IH]; intros d N; cbn [map fold_res fst]; [now rewrite app_nil_r|].
  destruct (H k l (or_introl eq_refl)) as [E1 E2]. rewrite E1, E2. cbn [bind].
  rewrite dict_set_new.
  - rewrite IH; [now rewrite <- app_assoc|intros k' l' K; apply H; now right|now rewrite <- app_assoc].
  - intros K. rewrite map_app in N. cbn in N. apply NoDup_remove_2 in N. apply N. apply in_or_app. now left.
Qed.

Definition as_h5 {V} (t : list (string * list V)) : list (string * h5 V) := map (fun kl => (fst kl, Rows (snd kl))) t.
Definition sliced {V} i j (t : list (string * list V)) : list (string * list V) := map (fun kl => (fst kl, py_slice i j (snd kl))) t.

Lemma as_h5_keys {V} (t : list (string * list V)) : map fst (as_h5 t) = map fst t.
Proof. unfold as_h5. now rewrite map_map. Qed.
Lemma sliced_keys {V} i j (t : list (string * list V)) : map fst (sliced i j t) = map fst t.
Proof. unfold sliced. now rewrite map_map. Qed.
Lemma as_h5_lookup {V} (t : list (string * list V)) k l : NoDup (map fst t) -> In (k, l) t -> lookup k (as_h5 t) = Some (Rows l).
Proof.
  intros N H. apply lookup_In; [now rewrite as_h5_keys|]. unfold as_h5. apply in_map_iff. exists (k, l). auto.
Qed.

Lemma fold_res_ext {A S} (f g : S -> A -> res S) l : (forall s a, f s a = g s a) -> forall s, fold_res f s l = fold_res g s l.
Proof. intros H. induction l as [|a l IH]; intros s; cbn; [reflexivity|]. rewrite H. destruct (g s a); cbn; auto. Qed.

Lemma flat_keys_in {V} (ms : list (string * h5 V)) i j (t : list (string * list V)) : NoDup (map fst t) ->
  (forall k l, In (k, l) t -> no_slash k /\ lookup k ms = Some (Rows l)) ->
  load_flat_hdf5 (Group ms) i j (Some (map fst t)) None = Ok (sliced i j t).
Proof.
  intros N H. unfold load_flat_hdf5. cbn [bind].
  rewrite <- (sliced_keys i j t). rewrite <- (map_id (map fst (sliced i j t))).
  rewrite (fold_res_ext _ (fun data key => let* ko := Ok key in let* v := (let* o := h5_get (Group ms) key in h5_slice i j o) in Ok (dict_set data ko v))).
  2: { intros s a. cbn. destruct (h5_get (Group ms) a); reflexivity. }
  apply (fold_keys (fun key => let* o := h5_get (Group ms) key in h5_slice i j o) (fun key => Ok key) (sliced i j t) (fun k => k)).
  - intros k l K. split; [reflexivity|]. unfold sliced in K. apply in_map_iff in K. destruct K as ([k' l'] & E & K). cbn in E. injection E as <- <-.
    destruct (H k' l' K) as [Hs L]. rewrite get_flat, L by exact Hs. reflexivity.
  - cbn. now rewrite sliced_keys.
Qed.

Lemma flat_root {V} i j (t : list (string * list V)) : flat_table t ->
  load_flat_hdf5 (Group (as_h5 t)) i j None None = Ok (sliced i j t).
Proof.
  intros [N H]. rewrite <- (flat_keys_in (as_h5 t) i j t N).
  - unfold load_flat_hdf5. cbn [h5_keys bind]. now rewrite as_h5_keys.
  - intros k l K. split; [eapply H; exact K|now apply as_h5_lookup].
Qed.

Lemma flat_dataset_keys {V} (ms inner : list (string * h5 V)) d i j (t : list (string * list V)) : no_slash d -> lookup d ms = Some (Group inner) ->
  NoDup (map fst t) -> (forall k l, In (k, l) t -> no_slash k /\ lookup k inner = Some (Rows l)) ->
  load_flat_hdf5 (Group ms) i j (Some (map fst t)) (Some d) = Ok (sliced i j t).
Proof.
  intros Hd L N H. unfold load_flat_hdf5. cbn [bind].
  rewrite <- (sliced_keys i j t).
  set (out := fun key => match nth_error (split_slash key) 1 with Some k => Ok k | None => Err IndexError end : res string).
  rewrite (fold_res_ext _ (fun data key => let* ko := out key in let* v := (let* o := h5_get (Group ms) key in h5_slice i j o) in Ok (dict_set data ko v))).
  2: { intros s a. unfold out. destruct (nth_error (split_slash a) 1); cbn; [|reflexivity]. destruct (h5_get (Group ms) a); reflexivity. }
  apply (fold_keys (fun key => let* o := h5_get (Group ms) key in h5_slice i j o) out (sliced i j t) (fun k => d ++ "/" ++ k)%string).
  - intros k l K. unfold sliced in K. apply in_map_iff in K. destruct K as ([k' l'] & E & K). cbn in E. injection E as <- <-.
    destruct (H k' l' K) as [Hs Lk]. split.
    + unfold out. rewrite split_sep, !split_no_slash by assumption. reflexivity.
    + rewrite (get_nested ms inner), Lk by assumption. reflexivity.
  - cbn. now rewrite sliced_keys.
Qed.

Lemma flat_dataset {V} (ms : list (string * h5 V)) d i j (t : list (string * list V)) : no_slash d -> lookup d ms = Some (Group (as_h5 t)) ->
  flat_table t -> load_flat_hdf5 (Group ms) i j None (Some d) = Ok (sliced i j t).
Proof.
  intros Hd L [N H]. rewrite <- (flat_dataset_keys ms (as_h5 t) d i j t Hd L N).
  - unfold load_flat_hdf5. rewrite get_flat, L by exact Hd. cbn [bind h5_keys]. now rewrite as_h5_keys.
  - intros k l K. split; [eapply H; exact K|now apply as_h5_lookup].
Qed.

(** *** Slices *)

Lemma filter_seq_slice {V} (i j : nat) (l : list V) : forall s,
  map snd (filter (fun nx => (i <=? fst nx)%nat && (fst nx <? j)%nat)%bool (combine (seq s (length l)) l))
  = firstn (j - Nat.max i s) (skipn (i - s) l).
Proof.
  induction l as [|a l IH]; intros s; cbn [length seq combine filter map]; [now rewrite skipn_nil, firstn_nil|].
  cbn [fst]. destruct (i <=? s)%nat eqn:E1; cbn [andb].
  - apply Nat.leb_le in E1. replace (i - s)%nat with 0%nat by lia. rewrite Nat.max_r by lia. cbn [skipn].
    destruct (s <? j)%nat eqn:E2.
    + apply Nat.ltb_lt in E2. cbn [map snd]. rewrite IH. replace (i - S s)%nat with 0%nat by lia. rewrite Nat.max_r by lia.
      replace (j - s)%nat with (S (j - S s)) by lia. reflexivity.
    + apply Nat.ltb_ge in E2. rewrite IH. replace (j - s)%nat with 0%nat by lia. rewrite Nat.max_r by lia.
      replace (j - S s)%nat with 0%nat by lia. reflexivity.
  - apply Nat.leb_gt in E1. rewrite IH. replace (i - s)%nat with (S (i - S s)) by lia. cbn [skipn].
    now rewrite !Nat.max_l by lia.
Qed.
Lemma rows_between_slice {V} i j (l : list V) : rows_between i j l = slice i j l.
Proof. unfold rows_between. rewrite filter_seq_slice. now rewrite Nat.max_l, Nat.sub_0_r by lia. Qed.

Lemma slice_beyond {V} i j (l : list V) : slice i (Nat.min (length l) j) l = slice i j l.
Proof.
  unfold slice. destruct (Nat.le_gt_cases j (length l)); [now rewrite Nat.min_r by lia|].
  rewrite Nat.min_l by lia. rewrite !firstn_all2; [reflexivity| |]; rewrite skipn_length; lia.
Qed.
Lemma slice_start_beyond {V} i j (l : list V) : slice (Nat.min (length l) i) j l = slice i j l.
Proof.
  destruct (Nat.le_gt_cases i (length l)); [now rewrite Nat.min_r by lia|]. rewrite Nat.min_l by lia.
  unfold slice. rewrite (skipn_all2 (n := length l)), (skipn_all2 (n := i)) by lia. now rewrite !firstn_nil.
Qed.

Lemma bound_nat n i : slice_bound (Z.of_nat n) (Z.of_nat i) = Nat.min n i.
Proof. unfold slice_bound. destruct (Z.ltb_spec (Z.of_nat i) 0); lia. Qed.
Lemma bound_neg n i : (0 < i)%nat -> slice_bound (Z.of_nat n) (- Z.of_nat i) = (n - i)%nat.
Proof. intros H. unfold slice_bound. destruct (Z.ltb_spec (- Z.of_nat i) 0); lia. Qed.

Lemma py_slice_nat {V} i j (l : list V) : py_slice (Z.of_nat i) (Some (Z.of_nat j)) l = rows_between i j l.
Proof. unfold py_slice. rewrite !bound_nat, rows_between_slice, slice_beyond. apply slice_start_beyond. Qed.
Lemma py_slice_from {V} i (l : list V) : py_slice (Z.of_nat i) None l = rows_between i (length l) l.
Proof. unfold py_slice. rewrite !bound_nat, rows_between_slice, slice_beyond. apply slice_start_beyond. Qed.
Lemma py_slice_last {V} i (l : list V) : (0 < i)%nat -> py_slice (- Z.of_nat i) None l = rows_between (length l - i) (length l) l.
Proof. intros H. unfold py_slice. now rewrite bound_neg, bound_nat, rows_between_slice, slice_beyond by exact H. Qed.
Lemma rows_all {V} (l : list V) : rows_between 0 (length l) l = l.
Proof. rewrite rows_between_slice. unfold slice. rewrite Nat.sub_0_r. cbn. apply firstn_all. Qed.

Lemma rows_join {V} i j k (l : list V) : (i <= j)%nat -> (j <= k)%nat -> (rows_between i j l ++ rows_between j k l)%list = rows_between i k l.
Proof.
  intros H1 H2. rewrite !rows_between_slice. unfold slice.
  replace (skipn j l) with (skipn (j - i) (skipn i l)).
  - replace (k - i)%nat with ((j - i) + (k - j))%nat by lia. generalize (skipn i l) as m. intros m.
    revert m. generalize (k - j)%nat as b, (j - i)%nat as a. clear. induction a as [|a IH]; intros m; [reflexivity|].
    destruct m as [|x m]; cbn; [now rewrite firstn_nil|]. f_equal. apply IH.
  - replace j with ((j - i) + i)%nat at 2 by lia. generalize (j - i)%nat as a. clear. intros a. revert l.
    induction i as [|i IH]; intros l; [now rewrite Nat.add_0_r|]. rewrite Nat.add_succ_r. destruct l; cbn; [now rewrite skipn_nil|apply IH].
Qed.

(** *** Nested group names collapse *)

Lemma dict_set_keys {V} (d : list (string * V)) k v c : (forall x, In x (map fst d) -> x = c) -> (length d <= 1)%nat -> k = c ->
  (forall x, In x (map fst (dict_set d k v)) -> x = c) /\ (length (dict_set d k v) <= 1)%nat.
Proof.
  intros H L ->. destruct d as [|[k' v'] [|? ?]]; cbn in *; [split; [intros x [<-|[]]; reflexivity|lia]| |lia].
  rewrite (H k' (or_introl eq_refl)), String.eqb_refl. cbn. split; [intros x [<-|[]]; reflexivity|lia].
Qed.

Lemma collapse_fold {V} (g : string -> res (list V)) (out : string -> res string) c keys :
  (forall k, In k keys -> out k = Ok c) -> forall d data, (forall x, In x (map fst d) -> x = c) -> (length d <= 1)%nat ->
  fold_res (fun data key => let* ko := out key in let* v := g key in Ok (dict_set data ko v)) d keys = Ok data ->
  (forall x, In x (map fst data) -> x = c) /\ (length data <= 1)%nat.
Proof.
  induction keys as [|k keys IH]; intros H d data Hd Ld E; cbn [fold_res] in E; [injection E as <-; auto|].
  rewrite H in E by now left. cbn [bind] in E. destruct (g k) as [v|]; [|discriminate]. cbn [bind] in E.
  destruct (dict_set_keys d c v c Hd Ld eq_refl) as [A B].
  eapply IH; [intros k' K; apply H; now right|exact A|exact B|exact E].
Qed.

Lemma split_len_slash d : In "/"%char (list_ascii_of_string d) -> exists a c rest, split_slash d = a :: c :: rest.
Proof.
  unfold split_slash. generalize ""%string as cur. induction d as [|x d IH]; intros cur H; [easy|]. cbn.
  destruct (Ascii.eqb_spec x "/") as [->|N].
  - pose proof (split_from_ne d ""%string) as K. destruct (split_slash_from "" d) as [|c rest]; [congruence|eauto].
  - destruct H as [E|H]; [congruence|]. now apply IH.
Qed.

Lemma flat_collapse {V} (hdf : h5 V) i j keys d data : In "/"%char (list_ascii_of_string d) ->
  load_flat_hdf5 hdf i j keys (Some d) = Ok data -> (length data <= 1)%nat.
Proof.
  intros Hd E. destruct (split_len_slash d Hd) as (a & c & rest & S). unfold load_flat_hdf5 in E.
  assert (K : exists ks, (match keys with None => let* o := h5_get hdf d in let* ks := h5_keys o in Ok (map (fun k => d ++ "/" ++ k)%string ks) | Some ks => Ok (map (fun k => d ++ "/" ++ k)%string ks) end) = Ok (map (fun k => d ++ "/" ++ k)%string ks)
     \/ exists e, (match keys with None => let* o := h5_get hdf d in let* ks := h5_keys o in Ok (map (fun k => d ++ "/" ++ k)%string ks) | Some ks => Ok (map (fun k => d ++ "/" ++ k)%string ks) end) = Err e).
  { destruct keys as [ks|]; [exists ks; now left|]. destruct (h5_get hdf d) as [o|e]; [|exists []; right; exists e; reflexivity].
    cbn [bind]. destruct (h5_keys o) as [ks|e]; [exists ks; now left|exists []; right; exists e; reflexivity]. }
  destruct K as (ks & [K|(e & K)]); rewrite K in E; cbn [bind] in E; [|discriminate].
  set (out := fun key => match nth_error (split_slash key) 1 with Some k => Ok k | None => Err IndexError end : res string).
  rewrite (fold_res_ext _ (fun data key => let* ko := out key in let* v := (let* o := h5_get hdf key in h5_slice i j o) in Ok (dict_set data ko v))) in E.
  2: { intros s x. unfold out. destruct (nth_error (split_slash x) 1); cbn; [|reflexivity]. destruct (h5_get hdf x); reflexivity. }
  eapply (collapse_fold _ out c) in E; [apply E| |cbn; tauto|cbn; lia].
  intros k Hk. apply in_map_iff in Hk. destruct Hk as (x & <- & _). unfold out. rewrite split_sep, S. reflexivity.
Qed.
