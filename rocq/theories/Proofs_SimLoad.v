(** Lemmas on the simulation loaders. *)

From Coq Require Import Reals String List ZArith Bool Arith Lia FunctionalExtensionality.
From Verif Require Import Model_Num Model_Base Model_Fitter Model_Outline Model_Utils Model_Data Model_MPI
  Model_SimLoad Spec_Data Spec_SimLoad Proofs_Data2.
Import ListNotations.
Local Open Scope list_scope.

(** ** Galacticus *)

Lemma h5_path {V} (o : h5 V) (name : string) l : name <> EmptyString ->
  (exists x, h5_item o name = Ok x /\ h5_walk x l = h5_walk o (name :: l)) \/
  ((exists e, h5_item o name = Err e) /\ h5_walk o (name :: l) = Err KeyError).
Proof.
  intros Hn. destruct name as [|c s]; [contradiction|]. destruct o as [ms|r|v].
  - cbn [h5_walk h5_item]. destruct (lookup (String c s) ms) as [x|].
    + left. exists x. now split.
    + right. split; [now eexists|reflexivity].
  - right. split; [now eexists|reflexivity].
  - right. split; [now eexists|reflexivity].
Qed.

(** The node data, if they are there. *)
Lemma node_data_path {V} (hdf : h5 V) name : 
  match node_data hdf with
  | Ok nd => h5_walk hdf ["Outputs"; "Output1"; "nodeData"; name]%string = h5_walk nd [name]
  | Err _ => h5_walk hdf ["Outputs"; "Output1"; "nodeData"; name]%string = Err KeyError
  end.
Proof.
  unfold node_data.
  destruct (h5_path hdf "Outputs" ["Output1"; "nodeData"; name]%string) as [(a & -> & <-)|((e & ->) & ->)]; [discriminate| |reflexivity].
  cbn [bind].
  destruct (h5_path a "Output1" ["nodeData"; name]%string) as [(b & -> & <-)|((e & ->) & ->)]; [discriminate| |reflexivity].
  cbn [bind].
  destruct (h5_path b "nodeData" [name]%string) as [(c & -> & <-)|((e & ->) & ->)]; [discriminate| |]; reflexivity.
Qed.

Lemma walk_item {V} (nd : h5 V) name o : name <> EmptyString -> (h5_walk nd [name] = Ok o <-> h5_item nd name = Ok o).
Proof.
  intros Hn. destruct (h5_path nd name [] Hn) as [(x & -> & E)|((e & ->) & ->)].
  - change (h5_walk x []) with (Ok x) in E. rewrite <- E. tauto.
  - split; discriminate.
Qed.

Lemma file_items {V} (hdf : h5 V) m t i l : galacticus_file hdf m t i l <-> exists nd, node_data hdf = Ok nd /\
  h5_item nd "haloAccretionHistoryMass" = Ok (Rows m) /\ h5_item nd "haloAccretionHistoryTime" = Ok (Rows t) /\
  h5_item nd "nodeIsIsolated" = Ok (Rows i) /\ h5_item nd "basicTimeLastIsolated" = Ok (Rows l).
Proof.
  unfold galacticus_file, h5_get.
  change (split_slash "Outputs/Output1/nodeData/haloAccretionHistoryMass")
    with ["Outputs"; "Output1"; "nodeData"; "haloAccretionHistoryMass"]%string.
  change (split_slash "Outputs/Output1/nodeData/haloAccretionHistoryTime")
    with ["Outputs"; "Output1"; "nodeData"; "haloAccretionHistoryTime"]%string.
  change (split_slash "Outputs/Output1/nodeData/nodeIsIsolated")
    with ["Outputs"; "Output1"; "nodeData"; "nodeIsIsolated"]%string.
  change (split_slash "Outputs/Output1/nodeData/basicTimeLastIsolated")
    with ["Outputs"; "Output1"; "nodeData"; "basicTimeLastIsolated"]%string.
  pose proof (node_data_path hdf "haloAccretionHistoryMass") as P1.
  pose proof (node_data_path hdf "haloAccretionHistoryTime") as P2.
  pose proof (node_data_path hdf "nodeIsIsolated") as P3.
  pose proof (node_data_path hdf "basicTimeLastIsolated") as P4.
  destruct (node_data hdf) as [nd|e].
  - rewrite P1, P2, P3, P4, !walk_item by discriminate. split.
    + intros H. now exists nd.
    + intros (nd' & E & H). injection E as <-. exact H.
  - rewrite P1. split; [now intros [H _]|]. now intros (nd & E & _).
Qed.

Lemma nhalos_eval {V} (hdf : h5 V) m t i l : galacticus_file hdf m t i l -> get_nhalos_tot hdf = Ok (List.length m).
Proof.
  intros H. apply file_items in H. destruct H as (nd & E & H & _). unfold get_nhalos_tot. rewrite E. cbn [bind]. now rewrite H.
Qed.

Lemma extract_eval {V} (hdf : h5 V) m t i l a b : galacticus_file hdf m t i l ->
  extract_galacticus_mah_tables hdf a b =
    let b := match b with Some e => e | None => Z.of_nat (List.length m) end in
    Ok (py_slice a (Some b) m, py_slice a (Some b) t, py_slice a (Some b) i, py_slice a (Some b) l).
Proof.
  intros H. apply file_items in H. destruct H as (nd & E & H1 & H2 & H3 & H4). unfold extract_galacticus_mah_tables.
  rewrite E. cbn [bind]. rewrite H1, H2, H3, H4. destruct b; reflexivity.
Qed.

Lemma extract_only {V} (hdf : h5 V) a b r : extract_galacticus_mah_tables hdf a b = Ok r ->
  exists m t i l, galacticus_file hdf m t i l.
Proof.
  unfold extract_galacticus_mah_tables. destruct (node_data hdf) as [nd|] eqn:E; [|discriminate]. cbn [bind].
  destruct (match b with Some e => Ok e | None => _ end) as [e|]; [|discriminate]. cbn [bind].
  destruct (h5_item nd "haloAccretionHistoryMass") as [[]|] eqn:E1; try discriminate.
  destruct (h5_item nd "haloAccretionHistoryTime") as [[]|] eqn:E2; try discriminate.
  destruct (h5_item nd "nodeIsIsolated") as [[]|] eqn:E3; try discriminate.
  destruct (h5_item nd "basicTimeLastIsolated") as [[]|] eqn:E4; try discriminate.
  intros _. do 4 eexists. apply file_items. exists nd. split; [exact E|]. split; [exact E1|]. split; [exact E2|].
  split; [exact E3|exact E4].
Qed.

(** *** The script *)

Lemma as_hists_map {X} (f : X -> list xr) l : as_hists (map (fun x => Hist (f x)) l) = Ok (map f l).
Proof. induction l as [|x l IH]; [reflexivity|]. cbn. now rewrite IH. Qed.

Lemma write_lines_seq {A H} p (line : nat -> res str) (line' : H -> res str) (l : list H) (k : prog A) : forall n,
  (forall i x, nth_error l i = Some x -> line (n + i)%nat = line' x) ->
  write_lines p line (seq n (List.length l)) k = write_lines p line' l k.
Proof.
  induction l as [|x l IH]; intros n F; [reflexivity|]. cbn [List.length seq write_lines].
  rewrite <- (F 0%nat x eq_refl), Nat.add_0_r. destruct (line n) as [s|]; [|reflexivity]. cbn [lift]. f_equal.
  apply IH. intros i y Hi. rewrite <- (F (S i) y Hi). f_equal. lia.
Qed.

Lemma slice_map {X Y} (f : X -> Y) i j l : slice i j (map f l) = map f (slice i j l).
Proof. unfold slice. now rewrite skipn_map, firstn_map. Qed.

Lemma script_eval fitter dt outdir outbn hdf halos nranks rank : galacticus_halos hdf halos ->
  galacticus_script fitter dt outdir outbn false hdf nranks rank =
  galacticus_main fitter dt outdir outbn halos nranks rank.
Proof.
  intros (iso & la & F). unfold galacticus_script, galacticus_main.
  rewrite (nhalos_eval _ _ _ _ _ F), map_length. cbn [lift].
  destruct (array_split (seq 0 (List.length halos)) nranks) as [splits|]; [|reflexivity]. cbn [lift].
  destruct (index splits rank) as [indx|]; [|reflexivity]. cbn [lift].
  destruct (index indx 0) as [a|]; [|reflexivity]. cbn [lift].
  destruct (index indx (List.length indx - 1)) as [b|]; [|reflexivity]. cbn [lift].
  rewrite (extract_eval _ _ _ _ _ _ _ F). cbv zeta. cbn [lift].
  rewrite !py_slice_nat, !rows_between_slice, !slice_map. set (hs := slice a (b + 1) halos).
  rewrite as_hists_map. cbn [bind]. rewrite map_length. f_equal.
  change (map (fun x => fst x) hs) with (map fst hs).
  destruct (let* ts := lasts (map fst hs) in np_max ts) as [tm|]; [|reflexivity]. cbn [lift].
  f_equal. apply functional_extensionality. intros [r|v|z|T0]; try reflexivity. do 2 f_equal.
  unfold write_rank_file. do 2 f_equal. apply (write_lines_seq _ _ _ hs). intros i [ts ms] Hi.
  unfold fit_line, index. cbn [Nat.add].
  rewrite (map_nth_error (fun x : list xr * list xr => Hist (fst x)) i hs Hi),
    (map_nth_error (fun x : list xr * list xr => Hist (snd x)) i hs Hi). reflexivity.
Qed.

(** ** HACC *)

Lemma lookup_In {V} k (d : list (string * V)) v : lookup k d = Some v -> In (k, v) d.
Proof.
  induction d as [|[k' v'] d IH]; [discriminate|]. cbn [lookup]. destruct (String.eqb_spec k' k) as [->|].
  - intros H. injection H as ->. now left.
  - intros H. right. auto.
Qed.
Lemma lookup_None {V} k (d : list (string * V)) : lookup k d = None -> forall v, ~ In (k, v) d.
Proof.
  induction d as [|[k' v'] d IH]; intros H v Hin; [destruct Hin|]. cbn [lookup] in H.
  destruct (String.eqb_spec k' k) as [->|Hk]; [discriminate|]. destruct Hin as [E|Hin]; [congruence|]. exact (IH H v Hin).
Qed.
Lemma lookup_NoDup {V} k (d : list (string * V)) v : NoDup (map fst d) -> In (k, v) d -> lookup k d = Some v.
Proof.
  induction d as [|[k' v'] d IH]; intros Hn Hin; [destruct Hin|]. cbn [lookup map fst] in *. apply NoDup_cons_iff in Hn.
  destruct Hn as [Hx Hn]. destruct Hin as [E|Hin].
  - injection E as -> ->. now rewrite String.eqb_refl.
  - destruct (String.eqb_spec k' k) as [->|]; [|auto]. exfalso. apply Hx. change k with (fst (k, v)). now apply in_map.
Qed.

Lemma named_lookup E name sim : NoDup (map fst (simulations E)) -> simulation_named E name sim <->
  match lookup name (simulations E) with Some s => Ok s | None => parse_config E name end = Ok sim.
Proof.
  intros Hn. unfold simulation_named. split.
  - intros [H|[H P]].
    + now rewrite (lookup_NoDup _ _ _ Hn H).
    + destruct (lookup name (simulations E)) as [s|] eqn:L; [|exact P]. destruct (H s). now apply lookup_In.
  - destruct (lookup name (simulations E)) as [s|] eqn:L; intros H.
    + injection H as ->. left. now apply lookup_In.
    + right. split; [now apply lookup_None|exact H].
Qed.

Lemma load_mahs_inv E fn name c n col t m : NoDup (map fst (simulations E)) ->
  load_mahs E fn name c n col = Ok (t, m) <->
  has_haccytrees E = true /\ has_dsps E = true /\ exists sim mats raw, simulation_named E name sim /\
    corematrix_reader E fn n c sim = Ok mats /\ lookup col mats = Some raw /\
    t = output_ages E sim /\ m = hacc_mahs raw (h sim).
Proof.
  intros Hn. unfold load_mahs, load_forest. split.
  - destruct (has_haccytrees E); [|discriminate]. cbn [negb].
    destruct (match lookup name (simulations E) with Some s => Ok s | None => parse_config E name end) as [sim|] eqn:S; [|discriminate].
    cbn [bind]. destruct (corematrix_reader E fn n c sim) as [mats|] eqn:M; [|discriminate]. cbn [bind].
    destruct (lookup col mats) as [raw|] eqn:L; [|discriminate]. cbn [bind].
    destruct (has_dsps E); [|discriminate]. cbn [negb]. intros H. injection H as <- <-.
    refine (conj eq_refl (conj eq_refl _)). exists sim, mats, raw. apply named_lookup in S; [|exact Hn].
    refine (conj S (conj M (conj L (conj _ eq_refl)))). unfold ages, output_ages. now rewrite map_map.
  - intros (-> & -> & sim & mats & raw & S & M & L & -> & ->). apply named_lookup in S; [|exact Hn]. rewrite S.
    cbn [negb bind]. rewrite M. cbn [bind]. rewrite L. cbn [bind]. unfold ages, output_ages. now rewrite map_map.
Qed.

Lemma cosmic_time_inv E name z t : NoDup (map fst (simulations E)) ->
  get_cosmic_time_hacc E name = Ok (z, t) <->
  has_haccytrees E = true /\ has_dsps E = true /\ exists sim, In (name, sim) (simulations E) /\
    z = output_redshifts sim /\ t = output_ages E sim.
Proof.
  intros Hn. unfold get_cosmic_time_hacc. split.
  - destruct (has_haccytrees E); [|discriminate]. cbn [negb].
    destruct (lookup name (simulations E)) as [sim|] eqn:S; [|discriminate]. cbn [bind].
    destruct (has_dsps E); [|discriminate]. cbn [negb]. intros H. injection H as <- <-.
    refine (conj eq_refl (conj eq_refl _)). exists sim. apply lookup_In in S. refine (conj S (conj eq_refl _)).
    unfold ages, output_ages. now rewrite map_map.
  - intros (-> & -> & sim & S & -> & ->). rewrite (lookup_NoDup _ _ _ Hn S). cbn [negb bind].
    unfold ages, output_ages. now rewrite map_map.
Qed.

Lemma hacc_mahs_app a b x : hacc_mahs (a ++ b) x = hacc_mahs a x ++ hacc_mahs b x.
Proof. unfold hacc_mahs. now rewrite !map_app. Qed.
Lemma hacc_mahs_concat l x : hacc_mahs (concat l) x = concat (map (fun a => hacc_mahs a x) l).
Proof. induction l as [|a l IH]; [reflexivity|]. cbn [concat map]. now rewrite hacc_mahs_app, IH. Qed.
