(** Properties C49, C50, C53, C54, C55: loaders, tables and measured targets. *)

From Coq Require Import Reals String Ascii List ZArith Bool Arith Lia Lra Permutation Sorted.
From Verif Require Import Model_Num Model_Base Model_Kernels Model_Utils Model_Adam Model_Fitter Model_Data
  RealAux Spec_Kernels Spec_Utils Spec_Fitter Spec_Data Proofs_Trim Proofs_Fitter Proofs_Data Proofs_Data2 Proofs_Data3 Proofs_Data4 Proofs_Data5.
Import ListNotations.
Local Open Scope R_scope.

(** ** C49: splitting rows among ranks *)

(** For every array and every positive number of ranks, array_split returns one
    piece per rank; the pieces joined in rank order are the array, and their
    sizes differ by at most one. *)
Theorem C49_split_partition : forall (A : Type) (rows : list A) (nranks : nat), (0 < nranks)%nat ->
  exists parts, array_split rows nranks = Ok parts /\ balanced_partition rows nranks parts.
Proof. intros A rows nranks H. now apply array_split_partition. Qed.
Print Assumptions C49_split_partition.

(** The first [n mod k] ranks receive the extra row. *)
Theorem C49_split_sizes : forall (A : Type) (rows : list A) (nranks rank : nat) parts part, (0 < nranks)%nat ->
  array_split rows nranks = Ok parts -> nth_error parts rank = Some part ->
  length part = (length rows / nranks + (if rank <? length rows mod nranks then 1 else 0))%nat.
Proof.
  intros A rows nranks rank parts part H E N. rewrite (array_split_nth rows nranks parts rank part H E N).
  destruct (rank <? length rows mod nranks); lia.
Qed.
Print Assumptions C49_split_sizes.

(** A script that splits the row numbers and then selects its rows (as the
    fitting scripts do) gets the same piece as one that splits the rows. *)
Theorem C49_select_by_number : forall (A : Type) (rows : list A) (nranks rank : nat) parts numbers mine, (0 < nranks)%nat ->
  array_split rows nranks = Ok parts -> array_split (seq 0 (length rows)) nranks = Ok numbers ->
  nth_error numbers rank = Some mine ->
  exists part, nth_error parts rank = Some part /\ take rows mine = Ok part.
Proof.
  intros A rows nranks rank parts numbers mine H E1 E2 N. rewrite array_split_chop in E1 by exact H. rewrite array_split_chop in E2 by exact H.
  rewrite seq_length in E2. injection E1 as <-. injection E2 as <-. now apply take_split.
Qed.
Print Assumptions C49_select_by_number.

(** More ranks than rows. *)
Example C49_example : array_split [10; 20]%Z 3 = Ok [[10]; [20]; []]%Z /\ array_split [1; 2; 3; 4; 5; 6; 7]%Z 3 = Ok [[1; 2; 3]; [4; 5]; [6; 7]]%Z.
Proof. split; reflexivity. Qed.

(** ** C50: tables in HDF5 files *)

(** Writing a namedtuple and reading it back returns it, whatever the file
    contained before; no other file changes. *)
Theorem C50_namedtuple_roundtrip : forall (V : Type) (fs : disk V) names values p fn,
  namedtuple names values = Ok p ->
  let fs' := fst (write_namedtuple_to_hdf5 fs p fn) in
  snd (write_namedtuple_to_hdf5 fs p fn) = Ok tt /\
  load_namedtuple_from_hdf5 fs' fn = Ok p /\ _fields p = names /\ nvalues p = values /\
  forall other, other <> fn -> fs' other = fs other.
Proof.
  intros V fs names values p fn H. destruct (roundtrip fs names values p fn H) as (A & B & C).
  destruct (namedtuple_inv _ _ _ H) as (-> & _). exact (conj A (conj B (conj eq_refl (conj eq_refl C)))).
Qed.
Print Assumptions C50_namedtuple_roundtrip.

Example C50_example_names : exists p : named Z, namedtuple ["logm0"; "logtc"; "early_index"]%string [12; 0; 3]%Z = Ok p.
Proof. eexists. reflexivity. Qed.

(** The table in an HDF5 file with datasets [t], and its rows i..j-1. *)
Definition h5_table {V} (t : list (string * list V)) : h5 V := Group (map (fun kl => (fst kl, Rows (snd kl))) t).
Definition table_rows {V} (i j : nat) (t : list (string * list V)) : list (string * list V) :=
  map (fun kl => (fst kl, rows_between i j (snd kl))) t.

(** load_flat_hdf5(fn, istart, iend) on a file of datasets at the top level or in
    one group: every column, under its own name, with exactly the rows asked
    for. *)
Theorem C50_flat_rows : forall (V : Type) (t : list (string * list V)) (i j : nat), flat_table t ->
  load_flat_hdf5 (h5_table t) (Z.of_nat i) (Some (Z.of_nat j)) None None = Ok (table_rows i j t) /\
  forall root d, no_slash d -> lookup d root = Some (h5_table t) ->
    load_flat_hdf5 (Group root) (Z.of_nat i) (Some (Z.of_nat j)) None (Some d) = Ok (table_rows i j t).
Proof.
  intros V t i j H. assert (E : sliced (Z.of_nat i) (Some (Z.of_nat j)) t = table_rows i j t).
  { unfold sliced, table_rows. apply map_ext. intros kl. now rewrite py_slice_nat. }
  rewrite <- E. split; [now apply flat_root|]. intros root d Hd L. now apply flat_dataset.
Qed.
Print Assumptions C50_flat_rows.

(** With the default bounds: the whole table. *)
Theorem C50_flat_whole : forall (V : Type) (t : list (string * list V)), flat_table t ->
  load_flat_hdf5 (h5_table t) 0 None None None = Ok t /\
  forall root d, no_slash d -> lookup d root = Some (h5_table t) ->
    load_flat_hdf5 (Group root) 0 None None (Some d) = Ok t.
Proof.
  intros V t H. assert (E : sliced 0 None t = t).
  { unfold sliced. rewrite <- (map_id t) at 2. apply map_ext. intros [k l]. cbn [fst snd]. f_equal.
    change 0%Z with (Z.of_nat 0). rewrite py_slice_from. apply rows_all. }
  rewrite <- E at 2. split; [now apply flat_root|]. intros root d Hd L. rewrite <- E at 1. now apply flat_dataset.
Qed.
Print Assumptions C50_flat_whole.

(** With a negative istart: the last rows. *)
Theorem C50_flat_last : forall (V : Type) (t : list (string * list V)) (i : nat), flat_table t -> (0 < i)%nat ->
  load_flat_hdf5 (h5_table t) (- Z.of_nat i) None None None =
    Ok (map (fun kl => (fst kl, rows_between (length (snd kl) - i) (length (snd kl)) (snd kl))) t).
Proof.
  intros V t i H Hi. etransitivity; [exact (flat_root (- Z.of_nat i) None t H)|]. f_equal. unfold sliced. apply map_ext. intros kl. now rewrite py_slice_last.
Qed.
Print Assumptions C50_flat_last.

(** Asking for some columns returns those, in the order asked for. *)
Theorem C50_flat_keys : forall (V : Type) (t wanted : list (string * list V)) (i j : nat), flat_table t ->
  NoDup (map fst wanted) -> incl wanted t ->
  load_flat_hdf5 (h5_table t) (Z.of_nat i) (Some (Z.of_nat j)) (Some (map fst wanted)) None = Ok (table_rows i j wanted).
Proof.
  intros V t wanted i j [N H] NW I. assert (E : sliced (Z.of_nat i) (Some (Z.of_nat j)) wanted = table_rows i j wanted).
  { unfold sliced, table_rows. apply map_ext. intros kl. now rewrite py_slice_nat. }
  rewrite <- E. apply flat_keys_in; [exact NW|]. intros k l K. apply I in K. split; [eapply H; exact K|now apply as_h5_lookup].
Qed.
Print Assumptions C50_flat_keys.

(** Loading consecutive chunks and joining them column by column is loading the
    whole range. *)
Theorem C50_chunks_join : forall (V : Type) (i j k : nat) (l : list V), (i <= j)%nat -> (j <= k)%nat ->
  (rows_between i j l ++ rows_between j k l)%list = rows_between i k l.
Proof. intros. now apply rows_join. Qed.
Print Assumptions C50_chunks_join.

(** With a group inside a group the columns are all stored under one name, so at
    most one of them is returned. *)
Theorem C50_nested_group_collapses : forall (V : Type) (hdf : h5 V) i j keys d data,
  In "/"%char (list_ascii_of_string d) ->
  load_flat_hdf5 hdf i j keys (Some d) = Ok data -> (length data <= 1)%nat.
Proof. intros V hdf i j keys d data. apply flat_collapse. Qed.
Print Assumptions C50_nested_group_collapses.

(** So the claim that every dataset of the group is returned is false of nested
    groups: here two columns are stored and one comes back, under the group's
    name. *)
Theorem C50_nested_group_refuted : exists (hdf : h5 Z) (d : string) (t : list (string * list Z)),
  flat_table t /\ length t = 2%nat /\ h5_get hdf d = Ok (h5_table t) /\
  load_flat_hdf5 hdf 0 None None (Some d) = Ok [("b", [3; 4]%Z)]%string.
Proof.
  exists (Group [("a", Group [("b", Group [("x", Rows [1; 2]%Z); ("y", Rows [3; 4]%Z)])])])%string, "a/b"%string,
    [("x", [1; 2]%Z); ("y", [3; 4]%Z)]%string.
  split; [|split; [reflexivity|split; reflexivity]]. split.
  - cbn. repeat constructor; cbn; intuition discriminate.
  - intros k l [E|[E|[]]]; injection E as <- <-; (split; [discriminate|]); cbn; intuition discriminate.
Qed.
Print Assumptions C50_nested_group_refuted.

Example C50_example_flat : flat_table [("halo_id", [7; 8; 9]%Z); ("logm0", [1; 2; 3]%Z)]%string /\
  load_flat_hdf5 (h5_table [("halo_id", [7; 8; 9]%Z); ("logm0", [1; 2; 3]%Z)]%string) 1 (Some 9%Z) None None
    = Ok [("halo_id", [8; 9]%Z); ("logm0", [2; 3]%Z)]%string.
Proof.
  split; [|reflexivity]. split.
  - cbn. repeat constructor; cbn; intuition discriminate.
  - intros k l [E|[E|[]]]; injection E as <- <-; (split; [discriminate|]); cbn; intuition discriminate.
Qed.

(** ** C53: loaded mass histories *)

(** The cumulative peak: entry j is the greatest of the first j+1 values, NaN if
    one of them is NaN; it never decreases until it is NaN for good, taking it
    twice changes nothing, and a history that never decreases is left alone. *)
Theorem C53_cumulative_peak : forall raw : list xr,
  let peak := maximum_accumulate raw in
  cumulative_peak raw peak /\
  (forall i j x y, (i <= j)%nat -> nth_error peak i = Some x -> nth_error peak j = Some y -> y = NaN \/ xle x y) /\
  maximum_accumulate peak = peak /\
  (~ In NaN raw -> (forall i j x y, (i <= j)%nat -> nth_error raw i = Some x -> nth_error raw j = Some y -> xle x y) -> peak = raw).
Proof.
  intros raw. cbv zeta. refine (conj (accumulate_cumulative raw) (conj _ (conj (accumulate_idempotent raw) (accumulate_fixed raw)))).
  intros i j x y. apply accumulate_nondecreasing.
Qed.
Print Assumptions C53_cumulative_peak.

(** load_mahs: peak masses converted from Msun/h to Msun, never decreasing. *)
Theorem C53_hacc : forall (forest : list (list R)) (h : R), 0 < h ->
  exists mahs, hacc_mahs (map (map Fin) forest) (Fin h) = map (map Fin) mahs /\
  Forall2 (fun raw row => nondecreasing row /\ running_max raw (map (fun m => m * h) row)) forest mahs.
Proof. intros. now apply hacc_fin. Qed.
Print Assumptions C53_hacc.

(** load_bpl_mah_data: peak masses of at least 1 Msun, never decreasing, with the
    ids, times and lgt0 of the inputs. *)
Theorem C53_bpl : forall ids (masses : list (list R)) (t : list R) tl, last_is t tl -> 0 < tl ->
  exists mahs, load_bpl_mah_data ids (map (map Fin) masses) (map Fin t) =
      Ok (ids, map (map Fin) mahs, map Fin t, Fin 10, Fin (log10 tl)) /\
  Forall2 (fun raw row => nondecreasing row /\ (forall m, In m row -> 1 <= m) /\
             exists peak, running_max raw peak /\ row = map (fun m => Rmax m 1) peak) masses mahs.
Proof. intros. now apply bpl_fin. Qed.
Print Assumptions C53_bpl.

(** load_tng_data: for log-masses that are zero or positive, the masses never
    decrease; the load is refused unless some mass exceeds 1e5 Msun. *)
Theorem C53_tng : forall table : list (list R), (forall r x, In r table -> In x r -> 0 <= x) ->
  forall out, load_tng_mahs (map (map Fin) table) = Ok out ->
  exists mahs, out = map (map Fin) mahs /\
    Forall2 (fun raw row => nondecreasing row /\
      exists peak, running_max raw peak /\
        row = map (fun lgm => (if Req_EM_T lgm 0 then 0 else pow10 lgm) / (6774 / 10000)) peak) table mahs /\
    exists r m, In r mahs /\ In m r /\ 100000 < m.
Proof.
  intros table Hpos out E. destruct (tng_fin table) as (peaks & F & L). rewrite L in E.
  set (mahs := map (map tng_massR) peaks) in *. destruct (List.concat mahs) as [|m ms] eqn:C; [discriminate|].
  unfold Rltb in E. destruct (Rlt_dec 100000 (fold_left Rmax ms m)) as [G|G]; [|discriminate]. injection E as <-.
  exists mahs. split; [reflexivity|]. split.
  - unfold mahs. apply Forall2_map_r. clear -F Hpos. induction F as [|raw peak t ps R F IH]; constructor.
    + split; [|exists peak; split; [exact R|reflexivity]]. apply nondecreasing_map; [|eapply running_max_nondecreasing; exact R].
      intros x y Hx _ Hxy. apply tng_massR_mono; [|exact Hxy]. apply (Hpos raw); [now left|]. eapply running_max_In; eassumption.
    + apply IH. intros r x Hr. apply Hpos. now right.
  - apply fold_Rmax_spec in G. assert (K : exists x, In x (List.concat mahs) /\ 100000 < x).
    { rewrite C. destruct G as [G|(x & Hx & G)]; [exists m; split; [now left|exact G]|exists x; split; [now right|exact G]]. }
    destruct K as (x & Hx & G'). apply in_concat in Hx. destruct Hx as (r & Hr & Hxr). exists r, x. auto.
Qed.
Print Assumptions C53_tng.

(** Without that restriction the masses can decrease: a log-mass rising from -1
    to 0 (the marker for "no halo") drops from 0.1 to 0. *)
Theorem C53_tng_refuted : exists (table : list (list R)) mahs,
  load_tng_mahs (map (map Fin) table) = Ok (map (map Fin) mahs) /\ exists r, In r mahs /\ ~ nondecreasing r.
Proof.
  assert (P6 : 100000 < pow10 6).
  { replace 6 with (1 + 1 + 1 + 1 + 1 + 1) by ring. rewrite !pow10_plus, pow10_1. lra. }
  destruct (tng_fin [[-1; 0]; [6; 6]]) as (peaks & F & L).
  assert (R1 : forall a b p, a <= b -> running_max [a; b] p -> p = [a; b]).
  { intros a b p Hab [Lp H]. destruct p as [|x [|y [|? ?]]]; try discriminate. clear Lp.
    destruct (H 0%nat x eq_refl) as ((k & Hk & K) & _). assert (k = 0)%nat by lia. subst k. cbn in K. injection K as ->.
    destruct (H 1%nat y eq_refl) as ((k & Hk' & K) & M). specialize (M 1%nat b ltac:(lia) eq_refl).
    destruct k as [|[|k]]; cbn in K; [|injection K as <-; reflexivity|lia]. injection K as <-. f_equal. f_equal. lra. }
  inversion F as [|? p1 ? ps H1 F']; subst. inversion F' as [|? p2 ? ps2 H2 F'']; subst. inversion F''; subst.
  apply R1 in H1; [|lra]. apply R1 in H2; [|lra]. subst. 
  exists [[-1; 0]; [6; 6]], (map (map tng_massR) [[-1; 0]; [6; 6]]). rewrite L. split.
  - cbn [map List.concat app]. unfold Rltb. 
    match goal with |- context [Rlt_dec 100000 ?M] => destruct (Rlt_dec 100000 M) as [G|G]; [reflexivity|exfalso; apply G] end.
    apply fold_Rmax_spec. right. exists (tng_massR 6). split; [cbn; auto|]. unfold tng_massR, H_TNG. destruct (Req_EM_T 6 0); lra.
  - exists (map tng_massR [-1; 0]). split; [now left|]. intros N.
    specialize (N 0%nat 1%nat (tng_massR (-1)) (tng_massR 0) ltac:(lia) eq_refl eq_refl). unfold tng_massR, H_TNG in N.
    destruct (Req_EM_T (-1) 0); [lra|]. destruct (Req_EM_T 0 0); [|congruence]. pose proof (pow10_pos (-1)). lra.
Qed.
Print Assumptions C53_tng_refuted.

(** The loaders of the published data: for masses that are zero or at least one,
    the log-masses never decrease. *)
Theorem C53_pub : forall masses : list R, (forall m, In m masses -> m = 0 \/ 1 <= m) ->
  exists peak, running_max masses peak /\
    pub_log_mah (map Fin masses) = map Fin (map (fun m => if Req_EM_T m 0 then 0 else log10 m) peak) /\
    nondecreasing (map (fun m => if Req_EM_T m 0 then 0 else log10 m) peak).
Proof.
  intros masses H. destruct (pub_fin masses) as (peak & R & E); [intros m Hm; destruct (H m Hm); lra|].
  exists peak. refine (conj R (conj E _)). apply (nondecreasing_map pub_logR); [|eapply running_max_nondecreasing; exact R].
  intros x y Hx Hy. apply pub_logR_mono; apply H; eapply running_max_In; eassumption.
Qed.
Print Assumptions C53_pub.

(** With a mass between 0 and 1 they can decrease. *)
Theorem C53_pub_refuted : exists masses logs, (forall m, In m masses -> 0 <= m) /\
  pub_log_mah (map Fin masses) = map Fin logs /\ ~ nondecreasing logs.
Proof.
  destruct (pub_fin [0; / 10]) as (peak & R & E); [intros m [<-|[<-|[]]]; lra|].
  exists [0; / 10], (map pub_logR peak). refine (conj _ (conj E _)); [intros m [<-|[<-|[]]]; lra|].
  intros N. destruct R as [L H]. destruct peak as [|x [|y [|? ?]]]; try discriminate.
  destruct (H 0%nat x eq_refl) as ((k & Hk & K) & _). assert (k = 0)%nat by lia. subst k. cbn in K. injection K as <-.
  destruct (H 1%nat y eq_refl) as ((k & Hk' & K) & M). specialize (M 1%nat (/ 10) ltac:(lia) eq_refl).
  specialize (N 0%nat 1%nat (pub_logR 0) (pub_logR y) ltac:(lia) eq_refl eq_refl).
  destruct k as [|[|k]]; cbn in K; [injection K as <-; lra| |lia]. injection K as <-. unfold pub_logR in N.
  destruct (Req_EM_T 0 0); [|congruence]. destruct (Req_EM_T (/ 10) 0); [lra|].
  pose proof (log10_lt (/ 10) 1 ltac:(lra) ltac:(lra)) as G. rewrite log10_1 in G. lra.
Qed.
Print Assumptions C53_pub_refuted.

Example C53_example : running_max [3; 1; 4] [3; 3; 4] /\ last_is [1; 13.8] 13.8.
Proof.
  split.
  - split; [reflexivity|]. intros [|[|[|i]]] v Hv; cbn in Hv; try (destruct i; discriminate); injection Hv as <-.
    + split; [exists 0%nat; auto|]. intros [|j] w Hj Hw; [cbn in Hw; injection Hw as <-; lra|lia].
    + split; [exists 0%nat; auto|]. intros [|[|j]] w Hj Hw; cbn in Hw; try (injection Hw as <-; lra); lia.
    + split; [exists 2%nat; auto|]. intros [|[|[|j]]] w Hj Hw; cbn in Hw; try (injection Hw as <-; lra); lia.
  - exists [1]. reflexivity.
Qed.

(** ** C54: the outlier mask *)

(** Log-masses of the halos: [t] has one row per halo, each with [n] times. *)
Theorem C54_keeps_inliers : forall (n : nat) (t : list (list R)) (logmp lim z : R) (it_min : nat),
  rectangular n t -> (0 < n)%nat -> 0 <= lim < 1 / 2 ->
  exists mask, get_clean_sample_mask (mkArr2 n (map (map Fin) t)) (Fin logmp) (Z.of_nat it_min) lim (Fin z) = Ok mask /\
    length mask = length t /\
    forall i, nth_error mask i = Some true <->
      (i < length t)%nat /\ forall it, (it_min <= it)%nat -> (it < n - 1)%nat -> inlier t logmp lim z i it.
Proof. intros. now apply clean_mask_spec. Qed.
Print Assumptions C54_keeps_inliers.

(** The trimmed sample in [inlier] is determined. *)
Theorem C54_trimmed_unique : forall lim l kept kept', trimmed lim l kept -> trimmed lim l kept' -> kept = kept'.
Proof. intros. eapply trimmed_unique; eassumption. Qed.
Print Assumptions C54_trimmed_unique.

(** A later it_min never removes a halo, for every table of floats. *)
Theorem C54_later_start_keeps_more : forall a logmp lo lo' lim z mask mask', (lo <= lo')%Z ->
  get_clean_sample_mask a logmp lo lim z = Ok mask -> get_clean_sample_mask a logmp lo' lim z = Ok mask' ->
  forall i, nth_error mask i = Some true -> nth_error mask' i = Some true.
Proof. intros a logmp lo lo' lim z mask mask' H E E'. exact (clean_mask_mono a logmp lo lo' lim z mask mask' H E E'). Qed.
Print Assumptions C54_later_start_keeps_more.

(** The mask does not depend on logmp_sample, nor on the mass scale of any halo. *)
Theorem C54_normalisation_irrelevant : forall (n : nat) (t : list (list R)) (logmp logmp' lim z : R) (it_min : nat) (c : list R -> R),
  rectangular n t -> (0 < n)%nat -> 0 <= lim < 1 / 2 ->
  get_clean_sample_mask (mkArr2 n (map (map Fin) (map (fun r => map (fun x => x + c r) r) t))) (Fin logmp') (Z.of_nat it_min) lim (Fin z) =
  get_clean_sample_mask (mkArr2 n (map (map Fin) t)) (Fin logmp) (Z.of_nat it_min) lim (Fin z).
Proof.
  intros n t logmp logmp' lim z it_min c Hr Hn Hl.
  set (t' := map (fun r => map (fun x => x + c r) r) t).
  assert (Hr' : rectangular n t') by (intros r Hin; apply in_map_iff in Hin; destruct Hin as (s & <- & Hs); rewrite map_length; now apply Hr).
  destruct (clean_mask_spec n t logmp lim z it_min Hr Hn Hl) as (m1 & E1 & L1 & H1).
  destruct (clean_mask_spec n t' logmp' lim z it_min Hr' Hn Hl) as (m2 & E2 & L2 & H2).
  unfold table in E1, E2. rewrite E1, E2. f_equal.
  assert (LT : length t' = length t) by apply map_length.
  assert (I : forall i it, (it < n)%nat -> inlier t' logmp' lim z i it <-> inlier t logmp' lim z i it).
  { intros i it Hit. unfold inlier. unfold t'. rewrite (column_row_shift n t logmp' it c Hr Hit). reflexivity. }
  apply mask_ext; [congruence|]. intros i. rewrite H1, H2, LT. split; intros [A B]; (split; [exact A|]); intros it G1 G2.
  - apply (inlier_logmp t logmp' logmp); [lra|]. apply I; [lia|]. now apply B.
  - apply I; [lia|]. apply (inlier_logmp t logmp logmp'); [lra|]. now apply B.
Qed.
Print Assumptions C54_normalisation_irrelevant.

(** If at some time used for the cut all halos have the same rescaled mass (for
    example a sample of identical halos, or of one halo), every halo is removed,
    in exact arithmetic: the scores are 0/0. *)
Theorem C54_no_spread_removes_all : forall (n : nat) (t : list (list R)) (logmp lim z c : R) (it_min it : nat) mask,
  rectangular n t -> 0 <= lim < 1 / 2 -> (it_min <= it)%nat -> (it < n - 1)%nat ->
  (forall x, In x (shifted_column t logmp it) -> x = c) ->
  get_clean_sample_mask (mkArr2 n (map (map Fin) t)) (Fin logmp) (Z.of_nat it_min) lim (Fin z) = Ok mask ->
  forall i, nth_error mask i <> Some true.
Proof.
  intros n t logmp lim z c it_min it mask Hr Hl H1 H2 Hc E i Hi.
  destruct (clean_mask_spec n t logmp lim z it_min Hr ltac:(lia) Hl) as (m & E' & _ & H). unfold table in E'. rewrite E in E'. injection E' as <-.
  apply H in Hi. destruct Hi as [_ B]. exact (no_spread_not_inlier t logmp lim z i it c ltac:(lra) Hc (B it H1 H2)).
Qed.
Print Assumptions C54_no_spread_removes_all.

(** So "identical halos are not outliers" is false. *)
Theorem C54_identical_halos_refuted : exists n t logmp, rectangular n t /\ (forall r s, In r t -> In s t -> r = s) /\
  get_clean_sample_mask (mkArr2 n (map (map Fin) t)) (Fin logmp) 0 (1 / 100) (Fin 3) = Ok [false; false].
Proof.
  exists 2%nat, [[11; 12]; [11; 12]], 12.
  assert (Hr : rectangular 2 [[11; 12]; [11; 12]]) by (intros r [<-|[<-|[]]]; reflexivity).
  refine (conj Hr (conj _ _)); [intros r s [<-|[<-|[]]] [<-|[<-|[]]]; reflexivity|].
  destruct (C54_keeps_inliers 2 [[11; 12]; [11; 12]] 12 (1 / 100) 3 0 Hr ltac:(lia) ltac:(lra)) as (mask & E & L & _).
  pose proof (C54_no_spread_removes_all 2 [[11; 12]; [11; 12]] 12 (1 / 100) 3 (11 - 12 + 12) 0 0 mask Hr ltac:(lra) ltac:(lia) ltac:(lia)) as N.
  change (Z.of_nat 0) with 0%Z in *. rewrite E. f_equal. specialize (N ltac:(intros x [<-|[<-|[]]]; reflexivity) E).
  destruct mask as [|a [|b [|? ?]]]; try discriminate. f_equal; [destruct a; [exfalso; now apply (N 0%nat)|reflexivity]|].
  f_equal. destruct b; [exfalso; now apply (N 1%nat)|reflexivity].
Qed.
Print Assumptions C54_identical_halos_refuted.

(** A negative it_min makes the loop also visit the final time, where all
    rescaled masses agree, so every halo is removed, in exact arithmetic; one
    before the first time is refused. *)
Theorem C54_negative_start : forall (n : nat) (t : list (list R)) (logmp lim z : R) (it_min : Z),
  rectangular n t -> (0 < n)%nat -> 0 <= lim < 1 / 2 -> (it_min < 0)%Z ->
  get_clean_sample_mask (mkArr2 n (map (map Fin) t)) (Fin logmp) it_min lim (Fin z) =
    if (- Z.of_nat n <=? it_min)%Z then Ok (repeat false (length t)) else Err IndexError.
Proof.
  intros n t logmp lim z it_min Hr Hn Hl Hi. destruct (Z.leb_spec (- Z.of_nat n) it_min).
  - now apply clean_mask_negative.
  - now apply clean_mask_out_of_range.
Qed.
Print Assumptions C54_negative_start.

(** A sample of three halos with spread: the trimmed sample is the whole sample. *)
Example C54_example : rectangular 2 [[10; 12]; [11; 12]; [9; 12]] /\ inlier [[10; 12]; [11; 12]; [9; 12]] 12 (1 / 100) 3 0 0.
Proof.
  split; [intros r [<-|[<-|[<-|[]]]]; reflexivity|].
  exists (10 - 12 + 12), [9 - 12 + 12; 10 - 12 + 12; 11 - 12 + 12]. split; [reflexivity|].
  assert (M : mean [9 - 12 + 12; 10 - 12 + 12; 11 - 12 + 12] = 10) by (unfold mean, Rsum; cbn; lra).
  assert (D : 0 < deviation_of [9 - 12 + 12; 10 - 12 + 12; 11 - 12 + 12]).
  { unfold deviation_of. rewrite M. apply sqrt_lt_R0. unfold mean, Rsum. cbn. lra. }
  split; [|split; [exact D|]].
  - exists 0%nat, [], []. cbn [app length shifted_column map]. split; [cbn; lra|]. split; [reflexivity|]. split; [reflexivity|]. split.
    + cbn. eapply Permutation_trans; [apply Permutation_sym; apply (Permutation_app_comm [9 - 12 + 12] [10 - 12 + 12; 11 - 12 + 12])|]. apply Permutation_refl.
    + repeat constructor; lra.
  - rewrite M. replace (10 - 12 + 12 - 10) with 0 by ring. rewrite Rabs_R0. lra.
Qed.

(** ** C55: measured targets *)

(** [m] and [d]: masses and accretion rates, one row per halo and one column per
    entry of [lgt].  For a target time in the table, or after its end: the mean
    mass, the mean and variance of the log-mass, and the mean and variance of the
    accretion rate, of the sample scaled so that every halo ends at 10**logmp.  A
    negative mean is returned as NaN, because it is interpolated in log. *)
Theorem C55_at_table_times : forall (n : nat) (m d : list (list R)) (lgt ts : list R) (logmp : R),
  (0 < n)%nat -> rectangular n m -> rectangular n d -> length m = length d -> m <> [] ->
  (forall r x, In r m -> In x r -> 0 < x) -> length lgt = n -> strictly_increasing lgt ->
  exists mean_mah mean_log_mah var_log_mah mean_dmhdt var_dmhdt,
    measure_target_data (mkArr2 n (map (map Fin) m)) (mkArr2 n (map (map Fin) d)) (map Fin lgt) (map Fin ts) (Fin logmp)
      = Ok (mean_mah, mean_log_mah, var_log_mah, mean_dmhdt, var_dmhdt) /\
    length mean_mah = length ts /\ length mean_log_mah = length ts /\ length var_log_mah = length ts /\
    length mean_dmhdt = length ts /\ length var_dmhdt = length ts /\
    forall k x j, nth_error ts k = Some x ->
      nth_error lgt j = Some x \/ (j = n - 1)%nat /\ (exists z, nth_error lgt j = Some z /\ z <= x) ->
      nth_error mean_mah k = Some (Fin (mean (scaled_column m m logmp j))) /\
      (exists y, nth_error mean_log_mah k = Some y /\ logged (mean (map log10 (scaled_column m m logmp j))) y) /\
      nth_error var_log_mah k = Some (Fin (variance_of (map log10 (scaled_column m m logmp j)))) /\
      (exists y, nth_error mean_dmhdt k = Some y /\ logged (mean (scaled_column m d logmp j)) y) /\
      nth_error var_dmhdt k = Some (Fin (variance_of (scaled_column m d logmp j))).
Proof.
  intros n m d lgt ts logmp Hn Hm Hd Hl Hne Hpos Ht Hs. do 5 eexists. split; [now apply measure_ok|].
  rewrite !map_length. do 5 (split; [reflexivity|]). intros k x j Hk Hx.
  assert (R : reads lgt x j) by (destruct Hx as [Hx|[-> Hz]]; [now left|right; split; [congruence|exact Hz]]).
  destruct (measure_at n m d lgt logmp Hn Hm Hd Hl Hne Hpos Ht Hs x j R) as (A & B & C & D & E).
  rewrite !nth_error_map, Hk. cbn [option_map]. rewrite A, C, E. refine (conj eq_refl (conj _ (conj eq_refl (conj _ eq_refl)))).
  - eexists. split; [reflexivity|exact B].
  - eexists. split; [reflexivity|exact D].
Qed.
Print Assumptions C55_at_table_times.

(** At the last time and after it: the mean mass is 10**logmp, the mean log-mass
    is logmp (if that is not negative) and its variance is zero. *)
Theorem C55_last_time : forall (n : nat) (m d : list (list R)) (lgt ts : list R) (logmp t_last : R),
  (0 < n)%nat -> rectangular n m -> rectangular n d -> length m = length d -> m <> [] ->
  (forall r x, In r m -> In x r -> 0 < x) -> length lgt = n -> strictly_increasing lgt -> last_is lgt t_last ->
  exists mean_mah mean_log_mah var_log_mah mean_dmhdt var_dmhdt,
    measure_target_data (mkArr2 n (map (map Fin) m)) (mkArr2 n (map (map Fin) d)) (map Fin lgt) (map Fin ts) (Fin logmp)
      = Ok (mean_mah, mean_log_mah, var_log_mah, mean_dmhdt, var_dmhdt) /\
    forall k x, nth_error ts k = Some x -> t_last <= x ->
      nth_error mean_mah k = Some (Fin (pow10 logmp)) /\
      (exists y, nth_error mean_log_mah k = Some y /\ (0 <= logmp -> y = Fin logmp) /\ (logmp < 0 -> y = NaN)) /\
      nth_error var_log_mah k = Some (Fin 0).
Proof.
  intros n m d lgt ts logmp t_last Hn Hm Hd Hl Hne Hpos Ht Hs HL.
  destruct (C55_at_table_times n m d lgt ts logmp Hn Hm Hd Hl Hne Hpos Ht Hs) as (a & b & c & e & f & E & _ & _ & _ & _ & _ & H).
  exists a, b, c, e, f. split; [exact E|]. intros k x Hk Hx.
  assert (Z : nth_error lgt (n - 1) = Some t_last).
  { destruct HL as (pre & Hpre). rewrite <- Ht, Hpre, app_length. cbn. rewrite nth_error_app2 by lia.
    replace (length pre + 1 - 1 - length pre)%nat with 0%nat by lia. reflexivity. }
  destruct (H k x (n - 1)%nat Hk (or_intror (conj eq_refl (ex_intro _ t_last (conj Z Hx))))) as (A & B & C & _).
  assert (LC : forall y, In y (scaled_column m m logmp (n - 1)) -> y = pow10 logmp) by (intros y Hy; exact (last_scaled n m logmp Hn Hm Hpos y Hy)).
  assert (NE : scaled_column m m logmp (n - 1) <> []) by (unfold scaled_column; destruct m; [congruence|discriminate]).
  assert (NEL : map log10 (scaled_column m m logmp (n - 1)) <> []) by (intros K; apply map_eq_nil in K; contradiction).
  assert (LL : forall y, In y (map log10 (scaled_column m m logmp (n - 1))) -> y = logmp).
  { intros y Hy. apply in_map_iff in Hy. destruct Hy as (u & <- & Hu). rewrite (LC u Hu). apply log10_pow10. }
  rewrite (mean_const (pow10 logmp)) in A by assumption. rewrite (variance_const logmp) in C by assumption.
  destruct B as (y & By & Ly). rewrite (mean_const logmp) in Ly by assumption.
  refine (conj A (conj _ C)). exists y. split; [exact By|exact Ly].
Qed.
Print Assumptions C55_last_time.

(** Between two table times the mean mass is interpolated linearly in log-mass
    and log-time. *)
Theorem C55_between_table_times : forall (n : nat) (m d : list (list R)) (lgt ts : list R) (logmp : R),
  (0 < n)%nat -> rectangular n m -> rectangular n d -> length m = length d -> m <> [] ->
  (forall r x, In r m -> In x r -> 0 < x) -> length lgt = n -> strictly_increasing lgt ->
  exists mean_mah mean_log_mah var_log_mah mean_dmhdt var_dmhdt,
    measure_target_data (mkArr2 n (map (map Fin) m)) (mkArr2 n (map (map Fin) d)) (map Fin lgt) (map Fin ts) (Fin logmp)
      = Ok (mean_mah, mean_log_mah, var_log_mah, mean_dmhdt, var_dmhdt) /\
    forall k x j u v, nth_error ts k = Some x -> nth_error lgt j = Some u -> nth_error lgt (S j) = Some v -> u < x < v ->
      exists y, nth_error mean_mah k = Some (Fin y) /\ 0 < y /\
        (log10 y - log10 (mean (scaled_column m m logmp j))) * (v - u) =
        (log10 (mean (scaled_column m m logmp (S j))) - log10 (mean (scaled_column m m logmp j))) * (x - u).
Proof.
  intros n m d lgt ts logmp Hn Hm Hd Hl Hne Hpos Ht Hs. do 5 eexists. split; [now apply measure_ok|].
  intros k x j u v Hk Hu Hv Hx. eexists. split.
  - rewrite nth_error_map, Hk. cbn [option_map].
    rewrite (measure_between n m d lgt logmp Hn Hm Hl Hne Hpos Ht Hs x j u v Hu Hv Hx). reflexivity.
  - split; [apply pow10_pos|]. rewrite log10_pow10. field. lra.
Qed.
Print Assumptions C55_between_table_times.

(** rescale_target_log_mahs: each history ends at the observed mass and keeps all
    its differences. *)
Theorem C55_rescaled_histories : forall (row : list R) (l lgm_obs : R), last_is row l ->
  exists out, rescale_target_log_mah (map Fin row) (Fin lgm_obs) = Ok (map Fin out) /\
    last_is out lgm_obs /\ length out = length row /\
    forall i j a b a' b', nth_error row i = Some a -> nth_error row j = Some b ->
      nth_error out i = Some a' -> nth_error out j = Some b' -> b' - a' = b - a.
Proof.
  intros row l lgm H. exists (map (fun x => x - (l - lgm)) row). split; [now apply rescale_target_fin|]. split.
  - pose proof (last_map (fun x => x - (l - lgm)) row l H) as K. cbv beta in K. replace (l - (l - lgm)) with lgm in K by ring. exact K.
  - split; [apply map_length|]. intros i j a b a' b' Ha Hb Ha' Hb'. rewrite nth_error_map in Ha', Hb'. rewrite Ha in Ha'. rewrite Hb in Hb'.
    cbn in Ha', Hb'. injection Ha' as <-. injection Hb' as <-. ring.
Qed.
Print Assumptions C55_rescaled_histories.

Example C55_example : rectangular 2 [[1; 2]; [3; 4]] /\ rectangular 2 [[1; -1]; [0; 5]] /\
  (forall r x, In r [[1; 2]; [3; 4]] -> In x r -> 0 < x) /\ strictly_increasing [0; 1] /\ last_is [0; 1] 1.
Proof.
  refine (conj _ (conj _ (conj _ (conj _ _)))).
  - intros r [<-|[<-|[]]]; reflexivity.
  - intros r [<-|[<-|[]]]; reflexivity.
  - intros r x [<-|[<-|[]]] [<-|[<-|[]]]; lra.
  - intros [|[|i]] [|[|j]] x y H Hx Hy; cbn in Hx, Hy; try lia; try (destruct i; discriminate); try (destruct j; discriminate).
    injection Hx as <-. injection Hy as <-. lra.
  - exists [0]. reflexivity.
Qed.
