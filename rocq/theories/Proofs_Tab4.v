(** Bins, selections, and the calls that fail. *)

From Coq Require Import Reals String Lra Lia List ZArith Bool Ascii Sorted.
From Verif Require Import Model_Num Model_Base Model_Kernels Model_Fitter Model_Outline Model_Utils Model_Data
  Model_MPI Model_Tab RealAux Spec_Outline Spec_Tab Proofs_Outline Proofs_Outline2 Proofs_MPI Proofs_MPI3 Proofs_MPI8
  Proofs_MPI9 Proofs_Data5 Proofs_Tab Proofs_Tab2.
Import ListNotations.
Local Open Scope list_scope.
Local Open Scope R_scope.

(** ** Grids *)

Lemma points_length a b n : List.length (points a b n) = n.
Proof. unfold points. now rewrite map_length, seq_length. Qed.
Lemma points_nth a b n j : (j < n)%nat -> nth j (points a b n) 0 = a + INR j * ((b - a) / (INR n - 1)).
Proof.
  intros H. unfold points.
  rewrite (nth_indep _ 0 (a + INR 0 * ((b - a) / (INR n - 1)))) by (rewrite map_length, seq_length; exact H).
  rewrite (map_nth (fun j => a + INR j * ((b - a) / (INR n - 1)))), seq_nth by exact H. reflexivity.
Qed.
Lemma points_In a b n x : In x (points a b n) -> exists j, (j < n)%nat /\ x = a + INR j * ((b - a) / (INR n - 1)).
Proof. intros H. apply in_map_iff in H. destruct H as (j & <- & H). apply in_seq in H. exists j. split; [lia|reflexivity]. Qed.
Lemma points_member a b n j : (j < n)%nat -> In (a + INR j * ((b - a) / (INR n - 1))) (points a b n).
Proof. intros H. apply in_map_iff. exists j. split; [reflexivity|]. apply in_seq. lia. Qed.

Section Spaced.
  Variables (a s : R).
  Let c (j : nat) : R := a + INR j * s.

  Lemma spaced_disjoint m j k : 3 / 10 <= s -> in_bin m (c j) -> in_bin m (c k) -> j = k.
  Proof.
    intros Hs Hj Hk. unfold in_bin, c in *. apply Rabs_def2 in Hj. apply Rabs_def2 in Hk.
    destruct (lt_eq_lt_dec j k) as [[H|H]|H]; [|exact H|]; exfalso.
    - assert (X : INR j + 1 <= INR k) by (rewrite <- S_INR; apply le_INR; lia). nra.
    - assert (X : INR k + 1 <= INR j) by (rewrite <- S_INR; apply le_INR; lia). nra.
  Qed.
  Lemma spaced_gap j : 3 / 10 <= s -> ~ in_bin (a + s / 2) (c j).
  Proof.
    intros Hs H. unfold in_bin, c in H. apply Rabs_def2 in H. destruct j as [|j]; [cbn [INR] in H; lra|].
    rewrite S_INR in H. pose proof (pos_INR j). nra.
  Qed.
  Lemma spaced_double : 0 < s < 3 / 10 -> in_bin (a + s / 2) (c 0) /\ in_bin (a + s / 2) (c 1).
  Proof. intros H. unfold in_bin, c. cbn [INR]. split; apply Rabs_def1; lra. Qed.
  Lemma spaced_cover m k : 0 < s < 3 / 10 -> a - 15 / 100 < m -> m < c k + 15 / 100 -> exists j, (j <= k)%nat /\ in_bin m (c j).
  Proof.
    intros Hs Hlo. induction k as [|k IH]; intros Hhi.
    - exists 0%nat. split; [lia|]. unfold in_bin, c in *. cbn [INR] in *. apply Rabs_def1; lra.
    - destruct (Rlt_dec (c (S k) - 15 / 100) m) as [H|H].
      + exists (S k). split; [lia|]. unfold in_bin. apply Rabs_def1; lra.
      + destruct IH as (j & Hj & Hb); [|exists j; split; [lia|exact Hb]].
        unfold c in *. rewrite S_INR in *. lra.
  Qed.
End Spaced.

(** ** Selections *)

Definition trues (msk : list bool) : list nat := filter (fun i => nth i msk false) (seq 0 (List.length msk)).

Lemma filter_map_S (f : nat -> bool) l : filter f (map S l) = map S (filter (fun i => f (S i)) l).
Proof. induction l as [|i l IH]; [reflexivity|]. cbn [map filter]. destruct (f (S i)); cbn [map]; now rewrite IH. Qed.
Lemma trues_cons b msk : trues (b :: msk) = (if b then [0%nat] else []) ++ map S (trues msk).
Proof.
  unfold trues. set (f := fun i => nth i (b :: msk) false). cbn [List.length seq]. rewrite <- seq_shift.
  change (filter f (0%nat :: map S (seq 0 (List.length msk)))) with
    (if f 0%nat then 0%nat :: filter f (map S (seq 0 (List.length msk))) else filter f (map S (seq 0 (List.length msk)))).
  rewrite filter_map_S. subst f. cbv beta. cbn [nth]. destruct b; reflexivity.
Qed.

Lemma compress_trues {A} (def : A) msk x : List.length msk = List.length x -> compress msk x = Ok (pick (trues msk) def x).
Proof.
  revert x. induction msk as [|b msk IH]; intros [|a x] H; try discriminate; [reflexivity|]. cbn [compress].
  rewrite IH by (cbn in H; lia). cbn [bind]. f_equal. rewrite trues_cons. unfold pick. rewrite map_app, map_map.
  cbn [nth]. destruct b; reflexivity.
Qed.

Lemma seq_sorted a n : StronglySorted lt (seq a n).
Proof.
  revert a. induction n as [|n IH]; intros a; cbn [seq]; [constructor|]. constructor; [apply IH|].
  apply Forall_forall. intros x Hx. apply in_seq in Hx. lia.
Qed.
Lemma filter_sorted (f : nat -> bool) l : StronglySorted lt l -> StronglySorted lt (filter f l).
Proof.
  induction 1 as [|x l H IH F]; [constructor|]. cbn [filter]. destruct (f x); [|exact IH]. constructor; [exact IH|].
  apply Forall_forall. intros y Hy. apply filter_In in Hy. rewrite Forall_forall in F. now apply F.
Qed.
Lemma trues_kept (P : nat -> Prop) msk : (forall i, (i < List.length msk)%nat -> (nth i msk false = true <-> P i)) ->
  kept P (List.length msk) (trues msk).
Proof.
  intros H. split; [apply filter_sorted, seq_sorted|]. intros i. unfold trues. rewrite filter_In, in_seq.
  split; intros [H1 H2].
  - split; [lia|]. apply H; [lia|exact H2].
  - split; [lia|]. apply H; [lia|exact H2].
Qed.

Lemma compress_fields msk p : (forall c, In c (fields p) -> List.length c = List.length msk) ->
  exists ps, compress_params msk p = Ok ps /\ fields ps = map (pick (trues msk) NaN) (fields p).
Proof.
  intros H. unfold compress_params. destruct p as [c1 c2 c3 c4 c5]. unfold fields in *. cbn [logm0 logtc early_index late_index t_peak map] in *.
  rewrite !(compress_trues NaN) by (symmetry; apply H; cbn; tauto). cbn [collect bind make_params].
  eexists. split; [reflexivity|]. reflexivity.
Qed.

(** ** Calls that fail *)

Lemma argmin_from_bound l : forall i best v, (best < i)%nat -> (argmin_from i best v l < i + List.length l)%nat.
Proof.
  induction l as [|x l IH]; intros i best v H; cbn [argmin_from List.length]; [lia|].
  destruct (_ || _)%bool; [specialize (IH (S i) i x)|specialize (IH (S i) best v)]; lia.
Qed.
Lemma argmin_bound l k : argmin l = Ok k -> (k < List.length l)%nat.
Proof.
  destruct l as [|v l]; [discriminate|]. intros H. injection H as <-. cbn [List.length].
  pose proof (argmin_from_bound l 1 0 v). lia.
Qed.

Lemma log_mah_tables_fail p tp t_obs t0 : get_log_mah_tables_for_t_obs p tp t_obs t0 = Err TypeError.
Proof. reflexivity. Qed.

Lemma linspace_nonempty a b n : (1 <= n)%Z -> exists x l, np_linspace a b n = Ok (x :: l).
Proof.
  intros H. unfold np_linspace. destruct (Z.ltb_spec n 0); [lia|]. destruct (Z.eqb_spec n 1); [eauto|].
  destruct (Z.to_nat n) as [|k] eqn:E; [lia|]. cbn [seq map]. eauto.
Qed.

Lemma mbind_err {A B} (m : M A) (k : A -> M B) d e : m d = ([], d, Err e) -> mbind m k d = ([], d, Err e).
Proof. intros E. now rewrite (mbind_pure _ _ d _ E). Qed.

Lemma subvol_fail outdrn inp n_m n_t k d : (1 <= n_t)%Z ->
  exists e, subvol_samples outdrn inp n_m n_t k d = ([], d, Err e).
Proof.
  intros H. unfold subvol_samples.
  rewrite (mbind_pure _ _ d (in_subvol inp k)) by reflexivity. destruct (in_subvol inp k) as [[[params loss] hist]|e]; [|eauto].
  rewrite (mbind_pure _ _ d (load_diffmah_subvolume params loss hist)) by reflexivity.
  destruct (load_diffmah_subvolume params loss hist) as [[[p tp] upidh]|e]; [|eauto].
  rewrite (mbind_pure _ _ d (in_times inp)) by reflexivity. destruct (in_times inp) as [ts|e]; [|eauto].
  rewrite (mbind_pure _ _ d (last_of ts)) by reflexivity. destruct (last_of ts) as [t0|e]; [|eauto].
  rewrite (mbind_pure _ _ d (get_t_obs_table t0 n_t)) by reflexivity.
  unfold get_t_obs_table. destruct (linspace_nonempty T_OBS_TARGET_MIN t0 n_t H) as (x & l & ->). cbn [mfor].
  assert (X : exists e, (let! indx_t := mlift (argmin (map (fun t => xabs (xsub x t)) ts)) in
    let! upid := mlift (collect (map (fun r => index r indx_t) upidh)) in
    let! (_, log_mah_table) := mlift (get_log_mah_tables_for_t_obs p tp x t0) in
    let! lgm_obs_arr := mlift (lgmarr_table_from_t_obs_kern x n_m) in
    mfor lgm_obs_arr (fun lgm_obs =>
      let! (ps, ts, us) := mlift (get_target_mah_params log_mah_table lgm_obs p tp upid BIN_WIDTH) in
      match ts with
      | [] => mret tt
      | _ =>
          let msk_cens := map (fun u => (u =? -1)%Z) us in
          let! _ := write_sample outdrn (get_subvol_bnpat k lgm_obs x (lit "cens")) msk_cens ps ts in
          write_sample outdrn (get_subvol_bnpat k lgm_obs x (lit "sats")) (map negb msk_cens) ps ts
      end)) d = ([], d, Err e)).
  { rewrite (mbind_pure _ _ d (argmin (map (fun t => xabs (xsub x t)) ts))) by reflexivity. destruct (argmin _) as [i|e]; [|eauto].
    rewrite (mbind_pure _ _ d (collect (map (fun r => index r i) upidh))) by reflexivity. destruct (collect _) as [u|e]; [|eauto].
    rewrite (mbind_pure _ _ d (Err TypeError)) by reflexivity. eauto. }
  destruct X as (e & X). exists e. rewrite (mbind_pure _ _ d (Err e)) by exact X. reflexivity.
Qed.

Lemma zrange_cons a b : (a < b)%Z -> exists l, zrange a b = a :: l.
Proof.
  intros H. unfold zrange. destruct (Z.to_nat (b - a)) as [|k] eqn:E; [lia|]. cbn [seq map]. eexists. f_equal. lia.
Qed.

Lemma loop_fail outdrn inp istart iend n_m n_t d : (istart < iend)%Z -> (1 <= n_t)%Z ->
  exists e, smdpl_diffmahpop_subvolume_loop outdrn inp istart iend n_m n_t d = ([], d, Err e).
Proof.
  intros H1 H2. unfold smdpl_diffmahpop_subvolume_loop. destruct (zrange_cons istart iend H1) as (l & ->). cbn [mfor].
  destruct (subvol_fail outdrn inp n_m n_t istart d H2) as (e & E). exists e.
  apply mbind_err. now apply mbind_err.
Qed.

Lemma collect_Err {A B} (f : A -> res B) l a e : In a l -> f a = Err e -> exists e', collect (map f l) = Err e'.
Proof.
  intros Hin E. induction l as [|x l IH]; [contradiction|]. cbn [map collect].
  destruct (f x) as [b|e1] eqn:Ex; cbn [bind]; [|eauto]. destruct Hin as [->|Hin]; [congruence|].
  destruct (IH Hin) as (e' & ->). cbn [bind]. eauto.
Qed.

Definition no_targets : targets := mkTargets [] [] (D1 []) (D1 []) (D1 []) (D1 []).

Lemma tabulate_file_small d drn nh n r f l : tabulate_file d drn nh n r f = Ok l ->
  l = [] /\ exists a rows, np_load d (drn, fst (fst f)) = Ok a /\ reshape6 (concat (rows2 a)) = Ok rows /\
    (Z.of_nat (List.length rows) <= nh)%Z.
Proof.
  destruct f as [[bn lgm] t]. unfold tabulate_file. cbn [fst].
  destruct (np_load d (drn, bn)) as [a|e]; cbn [bind]; [|discriminate].
  destruct (reshape6 _) as [rows|e] eqn:Er; cbn [bind]; [|discriminate].
  destruct (get_t_table_for_t_obs t n) as [ts|e]; cbn [bind]; [|discriminate].
  destruct (Z.ltb_spec nh (Z.of_nat (List.length rows))) as [H|H].
  - unfold call. cbn [Nat.eqb]. destruct (make_params _) as [p|e]; cbn [bind]; discriminate.
  - intros E. injection E as <-. split; [reflexivity|]. exists a, rows. auto.
Qed.

Lemma tabulate_list_small d drn nh n r files t : tabulate_list d drn nh n r files = Ok t ->
  t = no_targets /\ forall f, In f files -> exists a rows, np_load d (drn, fst (fst f)) = Ok a /\
    reshape6 (concat (rows2 a)) = Ok rows /\ (Z.of_nat (List.length rows) <= nh)%Z.
Proof.
  unfold tabulate_list. destruct (collect _) as [c|e] eqn:E; cbn [bind]; [|discriminate].
  assert (HE := E). apply collect_spec in E.
  assert (X : concat c = []).
  { clear HE. remember (map _ files) as l eqn:El. revert files El. induction E as [|x y l c Hxy F IH]; intros files El; [reflexivity|].
    destruct files as [|f files]; [discriminate|]. cbn [map] in El. injection El as -> ->. cbn [concat].
    apply tabulate_file_small in Hxy. destruct Hxy as [-> _]. now rewrite (IH files). }
  rewrite X. intros H. injection H as <-. split; [reflexivity|].
  intros f Hf. destruct (tabulate_file d drn nh n r f) as [l|e] eqn:Ef.
  - now apply tabulate_file_small in Ef.
  - destruct (collect_Err (tabulate_file d drn nh n r) files f e Hf Ef) as (e' & X2). congruence.
Qed.

Lemma collect_names {A B} (g : A -> res B) l r : collect (map g l) = Ok r -> List.length r = List.length l.
Proof. intros H. apply collect_spec in H. rewrite <- (map_length g l). symmetry. clear -H. induction H; cbn; congruence. Qed.

Lemma name_numbers_fst pyfloat bns l : name_numbers pyfloat bns = Ok l -> map (fun f => fst (fst f)) l = bns.
Proof.
  unfold name_numbers. destruct (collect _) as [a|e] eqn:E1; cbn [bind]; [|discriminate].
  destruct (collect (map _ bns)) as [b|e] eqn:E2 in |- *; cbn [bind]; [|discriminate].
  intros H. injection H as <-. apply collect_names in E1, E2. revert a b E1 E2.
  induction bns as [|x bns IH]; intros [|y a] [|z b] E1 E2; try discriminate; [reflexivity|]. cbn [combine map fst]. f_equal.
  apply IH; cbn in *; lia.
Qed.

Lemma history_row_fail t r : history_row t r = Err TypeError.
Proof. destruct r as [[[[l to] n] i] cols]. do 5 (destruct cols as [|? cols]; [reflexivity|]). reflexivity. Qed.
Lemma history_rows_empty t (rs : list ((xr * xr * nat * nat) * list (list xr))) out :
  collect (map (history_row t) rs) = Ok out -> rs = [] /\ out = [].
Proof.
  destruct rs as [|r rs]; cbn [map collect]; [intros H; injection H as <-; auto|].
  rewrite history_row_fail. discriminate.
Qed.

Lemma combine_nil {A B} (l : list A) (r : list B) : List.length l = List.length r -> combine l r = [] -> l = [].
Proof. destruct l, r; try discriminate; auto. Qed.

Lemma load_empty d drn a b c e n choice cen sat :
  load_diffmahpop_targets d drn a b c e n choice = Ok (cen, sat) ->
  cen = [] /\ sat = [] /\ exists tc ts nc ns,
    load_table d drn (lit "mean_var_cens.h5") = Ok tc /\ load_table d drn (lit "mean_var_sats.h5") = Ok ts /\
    n_samples d (lit "cens") tc = Ok nc /\ n_samples d (lit "sats") ts = Ok ns /\
    keep_rows tc nc a c n = [] /\ keep_rows ts ns b e n = [].
Proof.
  unfold load_diffmahpop_targets, load_diffmahpop_mu_var_targets.
  destruct (load_table d drn (lit "mean_var_cens.h5")) as [tc|]; cbn [bind]; [|discriminate].
  destruct (load_table d drn (lit "mean_var_sats.h5")) as [ts|]; cbn [bind]; [|discriminate].
  destruct (rescale_target_log_mahs (tg_mean_log_mah tc) _); cbn [bind]; [|discriminate].
  destruct (rescale_target_log_mahs (tg_mean_log_mah ts) _); cbn [bind]; [|discriminate].
  destruct (n_samples d (lit "cens") tc) as [nc|] eqn:Ec; cbn [bind]; [|discriminate].
  destruct (n_samples d (lit "sats") ts) as [ns|] eqn:Es; cbn [bind]; [|discriminate].
  set (kc := keep_rows tc nc a c n). set (ks := keep_rows ts ns b e n).
  destruct (collect _) as [scen|] eqn:E1; cbn [bind]; [|discriminate].
  destruct (collect (map _ (combine ks _))) as [ssat|] eqn:E2; cbn [bind]; [|discriminate].
  destruct (dset_rows (tg_t_table tc)); cbn [bind]; [|discriminate].
  destruct (collect (map _ (combine kc scen))) as [lc|] eqn:E3; cbn [bind]; [|discriminate].
  destruct (match ks with [] => Ok [] | _ => dset_rows (tg_t_table ts) end); cbn [bind]; [|discriminate].
  destruct (collect (map _ (combine ks ssat))) as [ls|] eqn:E4; cbn [bind]; [|discriminate].
  intros H. injection H as <- <-. apply history_rows_empty in E3, E4. destruct E3 as [E3 ->]. destruct E4 as [E4 ->].
  split; [reflexivity|]. split; [reflexivity|]. exists tc, ts, nc, ns.
  apply collect_names in E1, E2. rewrite combine_length, seq_length, Nat.min_id in E1, E2.
  split; [reflexivity|]. split; [reflexivity|]. split; [exact Ec|]. split; [exact Es|].
  split; [apply (combine_nil kc scen); auto|apply (combine_nil ks ssat); auto].
Qed.

(** A row meeting the cuts is kept. *)
Lemma keep_rows_In d censat t ns a c n i l to arr :
  n_samples d censat t = Ok ns -> nth_error (tg_lgm_obs t) i = Some l -> nth_error (tg_t_obs t) i = Some to ->
  dfind d (TASSO_DRN, sample_name censat l to) = Some (Npy arr) ->
  xltb a to = true -> xltb l c = true -> (n <= List.length (rows2 arr))%nat -> keep_rows t ns a c n <> [].
Proof.
  intros H1 H2 H3 H4 H5 H6 H7.
  unfold n_samples in H1. apply collect_spec in H1.
  assert (X : forall (L : list xr) (T : list xr) ns i, Forall2 (fun x y => x = Ok y) (map (fun lt =>
    let* a := np_load d (TASSO_DRN, sample_name censat (fst lt) (snd lt)) in Ok (List.length (rows2 a))) (combine L T)) ns ->
    nth_error L i = Some l -> nth_error T i = Some to ->
    forall s, exists k, In (l, to, List.length (rows2 arr), k) (combine (combine (combine L T) ns) (seq s (List.length ns)))).
  { clear H1 H2 H3 ns i. induction L as [|l0 L IH]; intros [|t0 T] ns [|i] F E1 E2 s; try discriminate; cbn [combine map] in F;
    inversion F as [|? y ? ns' Ey F']; subst.
    - injection E1 as ->. injection E2 as ->. cbn [fst snd] in Ey. unfold np_load in Ey. rewrite H4 in Ey. cbn [bind] in Ey.
      injection Ey as <-. exists s. cbn [List.length seq combine]. now left.
    - cbn [nth_error] in E1, E2. destruct (IH T ns' i F' E1 E2 (S s)) as (k & Hk). exists k. cbn [List.length seq combine]. now right. }
  destruct (X _ _ ns i H1 H2 H3 0%nat) as (k & Hk). intros E. unfold keep_rows in E.
  assert (Y : In (l, to, List.length (rows2 arr), k) []); [|contradiction].
  rewrite <- E. apply filter_In. split; [exact Hk|]. rewrite H5, H6. cbn [andb]. now apply Nat.leb_le.
Qed.

(** ** The samples of a subvolume *)

Lemma pick_firstn {A} n idx (def : A) c : firstn n (pick idx def c) = pick (firstn n idx) def c.
Proof. unfold pick. apply firstn_map. Qed.

Lemma transpose_pick (cols : list (list xr)) idx :
  transpose (map (pick idx NaN) cols) (List.length idx) = map (fun i => map (fun c => nth i c NaN) cols) idx.
Proof.
  unfold transpose. rewrite (map_ext_in _ (fun k => (fun i => map (fun c => nth i c NaN) cols) (nth k idx 0%nat))).
  - rewrite <- (map_map (fun k => nth k idx 0%nat) (fun i => map (fun c => nth i c NaN) cols)). f_equal. clear. induction idx as [|i idx IH]; [reflexivity|].
    cbn [List.length seq map nth]. f_equal. rewrite <- seq_shift, map_map. exact IH.
  - intros k Hk. apply in_seq in Hk. rewrite map_map. apply map_ext. intros c. unfold pick.
    rewrite (nth_indep _ NaN (nth 0%nat c NaN)) by (rewrite map_length; lia).
    exact (map_nth (fun i => nth i c NaN) idx 0%nat k).
Qed.

Lemma sample_table_pick msk p tp : (forall c, In c (fields p ++ [tp]) -> List.length c = List.length msk) ->
  sample_table msk p tp = Ok (map (fun i => map (fun c => nth i c NaN) (fields p ++ [tp])) (firstn 34 (trues msk))).
Proof.
  intros H. unfold sample_table. change N_HALOS_PER_SUBVOL with 34%nat. rewrite <- transpose_pick.
  destruct p as [c1 c2 c3 c4 c5]. unfold fields in *. cbn [logm0 logtc early_index late_index t_peak map app] in *.
  rewrite !(compress_trues NaN) by (symmetry; apply H; cbn; tauto). cbn [collect bind map app].
  rewrite !pick_firstn. unfold pick at 7. now rewrite map_length.
Qed.

Lemma pick_incl {A} idx (def : A) c r : (forall i, In i idx -> (i < List.length c)%nat) -> In r (pick idx def c) -> In r c.
Proof. intros H Hr. apply in_map_iff in Hr. destruct Hr as (i & <- & Hi). apply nth_In, H, Hi. Qed.

Lemma trues_bound msk i : In i (trues msk) -> (i < List.length msk)%nat.
Proof. intros H. apply filter_In in H. destruct H as [H _]. apply in_seq in H. lia. Qed.

Lemma collect_ok {A B} (f : A -> res B) l : (forall a, In a l -> exists b, f a = Ok b) -> exists bs, collect (map f l) = Ok bs.
Proof.
  intros H. induction l as [|a l IH]; [cbn; eauto|]. cbn [map collect]. destruct (H a) as (b & ->); [now left|]. cbn [bind].
  destruct IH as (bs & ->); [intros x Hx; apply H; now right|]. cbn [bind]. eauto.
Qed.

Lemma good_subvol params loss hist : (forall c, In c (fields params) -> List.length c = List.length loss) ->
  List.length hist = List.length loss ->
  let idx := trues (map good_fit loss) in
  exists p, load_diffmah_subvolume params loss hist = Ok (p, pick idx NaN (t_peak params), pick idx [] hist) /\
    fields p = map (pick idx NaN) (fields params).
Proof.
  intros H1 H2 idx. unfold load_diffmah_subvolume.
  destruct (compress_fields (map good_fit loss) params) as (p & -> & Ef).
  { intros c Hc. rewrite map_length. now apply H1. }
  cbn [bind]. rewrite (compress_trues NaN).
  2:{ rewrite map_length. symmetry. apply H1. unfold fields. cbn. tauto. }
  cbn [bind]. rewrite (compress_trues []) by (rewrite map_length; congruence). cbn [bind]. exists p. auto.
Qed.

Lemma last_of_ok (l : list xr) : l <> [] -> exists a, last_of l = Ok a.
Proof.
  intros H. unfold last_of. destruct (rev l) as [|a r] eqn:E; [|eauto].
  exfalso. apply H. rewrite <- (rev_involutive l), E. reflexivity.
Qed.

Lemma loop_type_error outdrn inp istart iend n_m n_t d params loss hist ts : (istart < iend)%Z -> (1 <= n_t)%Z ->
  in_subvol inp istart = Ok (params, loss, hist) -> in_times inp = Ok ts -> ts <> [] ->
  (forall c, In c (fields params) -> List.length c = List.length loss) -> List.length hist = List.length loss ->
  (forall r, In r hist -> List.length r = List.length ts) ->
  smdpl_diffmahpop_subvolume_loop outdrn inp istart iend n_m n_t d = ([], d, Err TypeError).
Proof.
  intros H1 H2 Hi Ht Hne Hc Hh Hr. unfold smdpl_diffmahpop_subvolume_loop.
  destruct (zrange_cons istart iend H1) as (l & ->). cbn [mfor]. apply mbind_err, mbind_err. unfold subvol_samples.
  rewrite (mbind_pure _ _ d (in_subvol inp istart)) by reflexivity. rewrite Hi.
  rewrite (mbind_pure _ _ d (load_diffmah_subvolume params loss hist)) by reflexivity.
  destruct (good_subvol params loss hist Hc Hh) as (p & -> & _).
  rewrite (mbind_pure _ _ d (in_times inp)) by reflexivity. rewrite Ht.
  rewrite (mbind_pure _ _ d (last_of ts)) by reflexivity. destruct (last_of_ok ts Hne) as (t0 & ->).
  rewrite (mbind_pure _ _ d (get_t_obs_table t0 n_t)) by reflexivity.
  unfold get_t_obs_table. destruct (linspace_nonempty T_OBS_TARGET_MIN t0 n_t H2) as (x & l2 & ->). cbn [mfor].
  apply mbind_err.
  rewrite (mbind_pure _ _ d (argmin (map (fun t => xabs (xsub x t)) ts))) by reflexivity.
  destruct (argmin (map (fun t => xabs (xsub x t)) ts)) as [i|e] eqn:Ea; [|destruct ts; [contradiction|discriminate]].
  apply argmin_bound in Ea. rewrite map_length in Ea.
  rewrite (mbind_pure _ _ d (collect (map (fun r => index r i) (pick (trues (map good_fit loss)) [] hist)))) by reflexivity.
  destruct (collect_ok (fun r : list Z => index r i) (pick (trues (map good_fit loss)) [] hist)) as (us & ->).
  { intros r Hin. apply pick_incl in Hin; [|intros j Hj; apply trues_bound in Hj; rewrite map_length in Hj; lia].
    apply Hr in Hin. unfold index. destruct (nth_error r i) eqn:E; [eauto|]. apply nth_error_None in E. lia. }
  reflexivity.
Qed.

(** ** The written tables are refused *)

Lemma write_read pyfloat drn drn2 d tr d' :
  write_mean_variance_to_disk pyfloat drn2 (drn, lit "mean_var_cens.h5") (drn, lit "mean_var_sats.h5") d = (tr, d', Ok tt) ->
  dfind d' (drn, lit "mean_var_cens.h5") = Some (Hdf no_targets) /\ dfind d' (drn, lit "mean_var_sats.h5") = Some (Hdf no_targets).
Proof.
  unfold write_mean_variance_to_disk.
  rewrite (mbind_pure _ _ d (Ok (tabulate_target_means_vars pyfloat d drn2 100 25 true))) by reflexivity.
  rewrite (mbind_pure _ _ d (tabulate_target_means_vars pyfloat d drn2 100 25 true)) by reflexivity.
  unfold tabulate_target_means_vars.
  destruct (name_numbers pyfloat _) as [c|e]; cbn [bind]; [|discriminate].
  destruct (name_numbers pyfloat _) as [s|e]; cbn [bind]; [|discriminate].
  destruct (tabulate_list d drn2 100 25 true c) as [tc|e] eqn:Ec; cbn [bind]; [|discriminate].
  destruct (tabulate_list d drn2 100 25 true s) as [ts|e] eqn:Es; cbn [bind]; [|discriminate].
  apply tabulate_list_small in Ec, Es. destruct Ec as [-> _]. destruct Es as [-> _].
  unfold mbind, mact. intros H. injection H as <- <-. rewrite dfind_dput_eq. split; [|reflexivity].
  rewrite !dfind_dput_neq by (intros E; injection E as E; discriminate). now rewrite dfind_dput_eq.
Qed.

Lemma load_no_targets d drn a b c e n choice :
  dfind d (drn, lit "mean_var_cens.h5") = Some (Hdf no_targets) ->
  (exists s, load_table d drn (lit "mean_var_sats.h5") = Ok s) ->
  load_diffmahpop_targets d drn a b c e n choice = Err IndexError.
Proof.
  intros H (s & Hs). unfold load_diffmahpop_targets, load_diffmahpop_mu_var_targets. rewrite Hs.
  unfold load_table. rewrite H. reflexivity.
Qed.
