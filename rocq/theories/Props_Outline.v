(** Properties C31-C33: text output of a fit and its collation. *)

From Coq Require Import Reals Lra Lia List ZArith Bool Ascii String.
From Verif Require Import Model_Num RealAux Model_Base Model_Kernels Model_Adam Model_Fitter
  Model_Outline Spec_Kernels Spec_Fitter Spec_Outline Proofs_Fitter Proofs_Fitter2 Proofs_Outline Proofs_Outline2.
Import ListNotations.
Local Open Scope R_scope.

(** ** C31 *)

(** Any fit at all: numbers may be NaN or infinite. *)
Theorem C31_round_trip : forall fr n,
  count_below_last xlt (log_mah_target (loss_data fr)) n ->
  exists d, parse_outline (get_outline fr None) = Ok d /\
    reads_back (logm0 (p_best fr)) (fd_logm0 d) /\ reads_back (logtc (p_best fr)) (fd_logtc d) /\
    reads_back (early_index (p_best fr)) (fd_early d) /\ reads_back (late_index (p_best fr)) (fd_late d) /\
    reads_back (t_peak (p_best fr)) (fd_t_peak d) /\ reads_back (loss_best fr) (fd_loss d) /\
    fd_npts d = Z.of_nat n /\ fd_algo d = code_used fr.
Proof.
  intros fr n Hn. destruct (round_trip fr) as (d & H & R1 & R2 & R3 & R4 & R5 & R6 & RN & RA).
  exists d. rewrite (count_below_fun _ _ _ _ Hn (npts_any _)). auto 12.
Qed.
Print Assumptions C31_round_trip.

(** Reading back a number: what is lost, and what is not. *)
Theorem C31_precision : forall x y, reads_back (Fin x) y ->
  exists q, y = Fin q /\ Rabs (x - q) <= 5 / 1000000 * Rabs x /\ (six_digit x -> q = x) /\
    (0 <= x -> 0 <= q) /\ (x <= 0 -> q <= 0) /\
    reads_back (Fin q) (Fin q) /\ (forall y', reads_back (Fin q) y' -> y' = Fin q).
Proof.
  intros x y (q & -> & H). exists q. split; [reflexivity|].
  pose proof (nearest_rel x q H) as HR. pose proof (Rabs_pos x) as HP.
  split; [exact HR|]. split; [intros; now apply nearest_exact|].
  assert (Hq : reads_back (Fin q) (Fin q)).
  { exists q. split; [reflexivity|]. split; [apply H|]. intros z _.
    rewrite Rminus_diag_eq, Rabs_R0 by reflexivity. apply Rabs_pos. }
  refine (conj _ (conj _ (conj Hq _))).
  - intros Hx. rewrite (Rabs_right x) in HR by lra. pose proof (Rle_abs (x - q)). lra.
  - intros Hx. rewrite (Rabs_left1 x) in HR by lra. pose proof (Rle_abs (x - q)).
    pose proof (Rle_abs (- (x - q))). rewrite Rabs_Ropp in *. lra.
  - intros y' (q' & -> & H'). f_equal. apply nearest_exact; [apply H|exact H'].
Qed.
Print Assumptions C31_precision.

(** The line written: eight words; with a halo id, the same eight after the id. *)
Theorem C31_line_shape : forall fr, exists l,
  List.length l = 8%nat /\ Forall field l /\ line_of l (get_outline fr None) /\
  forall i, exists w, field w /\ parse_int w = Ok i /\ line_of (w :: l) (get_outline fr (Some i)).
Proof. exact outline_shape. Qed.
Print Assumptions C31_line_shape.

(** A skipped fit is recognisable in the text: exactly -99 and code -1. *)
Theorem C31_skipped_line :
  forall St f4 (adam : R -> optimizer (Varied xr) (Varied xr) St) mini t m g cut tmin ns nw tpf force fr n,
  diffmah_fitter f4 adam mini t m g cut tmin ns nw tpf force = Ok fr ->
  count_below_last xlt (log_mah_target (loss_data fr)) n ->
  skip_fit fr = true ->
  parse_outline (get_outline fr None)
  = Ok (mkFitData (Fin (-99)) (Fin (-99)) (Fin (-99)) (Fin (-99)) (Fin (-99)) (Fin (-99))
          (Z.of_nat n) (-1)).
Proof.
  intros St f4 adam mini t m g cut tmin ns nw tpf force fr n E Hn Hs.
  destruct (sentinel_line fr) as (k & Hk & EP).
  { destruct (fitter_inv _ _ _ _ _ _ _ _ _ _ _ _ _ E) as (_ & _ & H).
    destruct (fitter_skip _ _ _ _ _ _ _ _ _ _ _ _ _ E) as (_ & HS & _). apply HS, Hs. }
  now rewrite (count_below_fun _ _ _ _ Hn Hk).
Qed.
Print Assumptions C31_skipped_line.

(** ** C32 *)

Theorem C32_halo_id_line_does_not_parse : forall fr i,
  parse_outline (get_outline fr (Some i)) = Err ValueError.
Proof. exact halo_id_fails. Qed.
Print Assumptions C32_halo_id_line_does_not_parse.

(** ** C33 *)

Definition eight_names : list str :=
  map lit ["logm0"; "logtc"; "early_index"; "late_index"; "t_peak"; "loss"; "n_points_per_fit"; "fit_algo"]%string.

(** The header lines: a hash sign, then the column names. *)
Theorem C33_headers : line_of (lit "#" :: eight_names) HEADER /\
  line_of (lit "#" :: lit "halo_id" :: eight_names) HEADER_HALO_ID.
Proof.
  split.
  - change HEADER with (join (lit "#" :: eight_names) ++ [ascii_of_nat 10]). apply join_line. discriminate.
  - change HEADER_HALO_ID with (join (lit "#" :: lit "halo_id" :: eight_names) ++ [ascii_of_nat 10]).
    apply join_line. discriminate.
Qed.
Print Assumptions C33_headers.

Theorem C33_eight_columns : forall fs out t, ncols t = 8%nat ->
  (forall j, (j < 6)%nat -> float_cells t j) -> (forall j, (6 <= j < 8)%nat -> int_cells t j) ->
  exists fs' h, write_collated_data fs out t = (fs', Ok tt) /\
    fs' out = Some h /\ (forall n, n <> out -> fs' n = fs n) /\
    map fst h = eight_names /\
    (forall j c, nth_error (map snd h) j = Some c -> (j < 6)%nat -> float_dataset t j c) /\
    (forall j c, nth_error (map snd h) j = Some c -> (6 <= j)%nat -> int_dataset t j c).
Proof.
  intros fs out t H1 H2 H3. destruct (collate_8 fs out t H1 H2 H3) as (h & E & HN & HF & HI).
  exists (write_file fs out h), h. destruct (write_spec fs out h). auto 10.
Qed.
Print Assumptions C33_eight_columns.

Theorem C33_nine_columns : forall fs out t, ncols t = 9%nat ->
  int_cells t 0 -> (forall j, (1 <= j < 7)%nat -> float_cells t j) ->
  (forall j, (7 <= j < 9)%nat -> int_cells t j) ->
  exists fs' h, write_collated_data fs out t = (fs', Ok tt) /\
    fs' out = Some h /\ (forall n, n <> out -> fs' n = fs n) /\
    map fst h = lit "halo_id" :: eight_names /\
    (forall j c, nth_error (map snd h) j = Some c -> (1 <= j < 7)%nat -> float_dataset t j c) /\
    (forall j c, nth_error (map snd h) j = Some c -> (j = 0 \/ 7 <= j)%nat -> int_dataset t j c).
Proof.
  intros fs out t H1 H2 H3 H4. destruct (collate_9 fs out t H1 H2 H3 H4) as (h & E & HN & HF & HI).
  exists (write_file fs out h), h. destruct (write_spec fs out h). auto 10.
Qed.
Print Assumptions C33_nine_columns.

(** Any other width: nothing is written, and no error is raised.  When an error
    is raised it is ValueError, and no file has been touched. *)
Theorem C33_nothing_written : forall fs out t fs' r,
  write_collated_data fs out t = (fs', r) ->
  (ncols t <> 8%nat -> ncols t <> 9%nat -> fs' = fs /\ r = Ok tt) /\
  (forall e, r = Err e -> fs' = fs /\ e = ValueError).
Proof. exact collate_other. Qed.
Print Assumptions C33_nothing_written.

(** End to end: collating the lines of any fits gives the fits back. *)
Theorem C33_fits_collate : forall fs out frs ns,
  Forall2 (fun fr n => count_below_last xlt (log_mah_target (loss_data fr)) n) frs ns ->
  exists fs' l0 l1 l2 l3 l4 l5,
    write_collated_data fs out (mkTable 8 (map (fun fr => split (strip (get_outline fr None))) frs))
      = (fs', Ok tt) /\
    fs' out = Some [(lit "logm0", FloatCol l0); (lit "logtc", FloatCol l1);
                    (lit "early_index", FloatCol l2); (lit "late_index", FloatCol l3);
                    (lit "t_peak", FloatCol l4); (lit "loss", FloatCol l5);
                    (lit "n_points_per_fit", IntCol (map Z.of_nat ns));
                    (lit "fit_algo", IntCol (map code_used frs))] /\
    (forall n, n <> out -> fs' n = fs n) /\
    Forall2 (fun fr x => reads_back (logm0 (p_best fr)) x) frs l0 /\
    Forall2 (fun fr x => reads_back (logtc (p_best fr)) x) frs l1 /\
    Forall2 (fun fr x => reads_back (early_index (p_best fr)) x) frs l2 /\
    Forall2 (fun fr x => reads_back (late_index (p_best fr)) x) frs l3 /\
    Forall2 (fun fr x => reads_back (t_peak (p_best fr)) x) frs l4 /\
    Forall2 (fun fr x => reads_back (loss_best fr) x) frs l5.
Proof.
  intros fs out frs ns Hn. destruct (lines_cells frs) as (HF & HI).
  set (t := mkTable 8 (map (fun fr => split (strip (get_outline fr None))) frs)) in *.
  destruct (collate_8 fs out t eq_refl HF HI) as (h & E & HN & CF & CI).
  change (split (strip (skipn 1 HEADER))) with eight_names in HN.
  destruct h as [|[n0 c0] [|[n1 c1] [|[n2 c2] [|[n3 c3] [|[n4 c4] [|[n5 c5] [|[n6 c6] [|[n7 c7] [|]]]]]]]]];
    try discriminate. cbn [map fst] in HN. injection HN as -> -> -> -> -> -> -> ->.
  cbn [map snd] in CF, CI.
  destruct (line_floats frs 0 c0 (fun fr => logm0 (p_best fr)) (fun _ => eq_refl) (CF 0%nat _ eq_refl ltac:(lia))) as (l0 & -> & F0).
  destruct (line_floats frs 1 c1 (fun fr => logtc (p_best fr)) (fun _ => eq_refl) (CF 1%nat _ eq_refl ltac:(lia))) as (l1 & -> & F1).
  destruct (line_floats frs 2 c2 (fun fr => early_index (p_best fr)) (fun _ => eq_refl) (CF 2%nat _ eq_refl ltac:(lia))) as (l2 & -> & F2).
  destruct (line_floats frs 3 c3 (fun fr => late_index (p_best fr)) (fun _ => eq_refl) (CF 3%nat _ eq_refl ltac:(lia))) as (l3 & -> & F3).
  destruct (line_floats frs 4 c4 (fun fr => t_peak (p_best fr)) (fun _ => eq_refl) (CF 4%nat _ eq_refl ltac:(lia))) as (l4 & -> & F4).
  destruct (line_floats frs 5 c5 loss_best (fun _ => eq_refl) (CF 5%nat _ eq_refl ltac:(lia))) as (l5 & -> & F5).
  pose proof (line_ints frs 6 c6 (fun fr => Z.of_nat (compute_non_trivial_npts (log_mah_target (loss_data fr)))) (fun _ => eq_refl) (CI 6%nat _ eq_refl ltac:(lia))) as ->.
  pose proof (line_ints frs 7 c7 code_used (fun _ => eq_refl) (CI 7%nat _ eq_refl ltac:(lia))) as ->.
  assert (EN : map (fun fr => Z.of_nat (compute_non_trivial_npts (log_mah_target (loss_data fr)))) frs = map Z.of_nat ns).
  { clear - Hn. induction Hn as [|fr n frs ns H _ IH]; [reflexivity|]. cbn [map]. f_equal; [|exact IH].
    f_equal. symmetry. exact (count_below_fun _ _ _ _ H (npts_any _)). }
  rewrite EN in E.
  eexists _, l0, l1, l2, l3, l4, l5. split; [exact E|].
  match goal with |- write_file _ _ ?h _ = _ /\ _ => destruct (write_spec fs out h) as (W1 & W2) end.
  rewrite W1. auto 12.
Qed.
Print Assumptions C33_fits_collate.

(** The same with halo ids, which come back exactly (unlike through _parse_outline, C32). *)
Theorem C33_fits_with_ids_collate : forall fs out (ps : list (Z * FitResult)) ns,
  Forall2 (fun p n => count_below_last xlt (log_mah_target (loss_data (snd p))) n) ps ns ->
  exists fs' l0 l1 l2 l3 l4 l5,
    write_collated_data fs out
      (mkTable 9 (map (fun p => split (strip (get_outline (snd p) (Some (fst p))))) ps)) = (fs', Ok tt) /\
    fs' out = Some [(lit "halo_id", IntCol (map fst ps));
                    (lit "logm0", FloatCol l0); (lit "logtc", FloatCol l1);
                    (lit "early_index", FloatCol l2); (lit "late_index", FloatCol l3);
                    (lit "t_peak", FloatCol l4); (lit "loss", FloatCol l5);
                    (lit "n_points_per_fit", IntCol (map Z.of_nat ns));
                    (lit "fit_algo", IntCol (map (fun p => code_used (snd p)) ps))] /\
    (forall n, n <> out -> fs' n = fs n) /\
    Forall2 (fun p x => reads_back (logm0 (p_best (snd p))) x) ps l0 /\
    Forall2 (fun p x => reads_back (logtc (p_best (snd p))) x) ps l1 /\
    Forall2 (fun p x => reads_back (early_index (p_best (snd p))) x) ps l2 /\
    Forall2 (fun p x => reads_back (late_index (p_best (snd p))) x) ps l3 /\
    Forall2 (fun p x => reads_back (t_peak (p_best (snd p))) x) ps l4 /\
    Forall2 (fun p x => reads_back (loss_best (snd p)) x) ps l5.
Proof.
  intros fs out ps ns Hn. destruct (lines_cells_id ps) as (H0 & HF & HI).
  set (t := mkTable 9 (map (fun p => split (strip (get_outline (snd p) (Some (fst p))))) ps)) in *.
  destruct (collate_9 fs out t eq_refl H0 HF HI) as (h & E & HN & CF & CI).
  change (split (strip (skipn 1 HEADER_HALO_ID))) with (lit "halo_id" :: eight_names) in HN.
  destruct h as [|[nh ch] [|[n0 c0] [|[n1 c1] [|[n2 c2] [|[n3 c3] [|[n4 c4] [|[n5 c5] [|[n6 c6] [|[n7 c7] [|]]]]]]]]]];
    try discriminate. cbn [map fst] in HN. injection HN as -> -> -> -> -> -> -> -> ->.
  cbn [map snd] in CF, CI.
  destruct (line_floats_id ps 0 c0 (fun fr => logm0 (p_best fr)) (fun _ => eq_refl) (CF 1%nat _ eq_refl ltac:(lia))) as (l0 & -> & F0).
  destruct (line_floats_id ps 1 c1 (fun fr => logtc (p_best fr)) (fun _ => eq_refl) (CF 2%nat _ eq_refl ltac:(lia))) as (l1 & -> & F1).
  destruct (line_floats_id ps 2 c2 (fun fr => early_index (p_best fr)) (fun _ => eq_refl) (CF 3%nat _ eq_refl ltac:(lia))) as (l2 & -> & F2).
  destruct (line_floats_id ps 3 c3 (fun fr => late_index (p_best fr)) (fun _ => eq_refl) (CF 4%nat _ eq_refl ltac:(lia))) as (l3 & -> & F3).
  destruct (line_floats_id ps 4 c4 (fun fr => t_peak (p_best fr)) (fun _ => eq_refl) (CF 5%nat _ eq_refl ltac:(lia))) as (l4 & -> & F4).
  destruct (line_floats_id ps 5 c5 loss_best (fun _ => eq_refl) (CF 6%nat _ eq_refl ltac:(lia))) as (l5 & -> & F5).
  pose proof (line_ints_id ps 0 ch fst (fun _ => eq_refl) (CI 0%nat _ eq_refl ltac:(lia))) as ->.
  pose proof (line_ints_id ps 7 c6 (fun p => Z.of_nat (compute_non_trivial_npts (log_mah_target (loss_data (snd p))))) (fun _ => eq_refl) (CI 7%nat _ eq_refl ltac:(lia))) as ->.
  pose proof (line_ints_id ps 8 c7 (fun p => code_used (snd p)) (fun _ => eq_refl) (CI 8%nat _ eq_refl ltac:(lia))) as ->.
  assert (EN : map (fun p => Z.of_nat (compute_non_trivial_npts (log_mah_target (loss_data (snd p))))) ps = map Z.of_nat ns).
  { clear - Hn. induction Hn as [|fr n frs ns H _ IH]; [reflexivity|]. cbn [map]. f_equal; [|exact IH].
    f_equal. symmetry. exact (count_below_fun _ _ _ _ H (npts_any _)). }
  rewrite EN in E.
  eexists _, l0, l1, l2, l3, l4, l5. split; [exact E|].
  match goal with |- write_file _ _ ?h _ = _ /\ _ => destruct (write_spec fs out h) as (W1 & W2) end.
  rewrite W1. auto 12.
Qed.
Print Assumptions C33_fits_with_ids_collate.

(** ** Examples *)

(** A skipped halo with two points, as text. *)
Definition ex_skipped : FitResult :=
  mkFitResult (mkParams (Fin (-99)) (Fin (-99)) (Fin (-99)) (Fin (-99)) (Fin (-99))) (Fin (-99)) true false (-1)
    (mkLossData [] [Fin 11; Fin 12] NaN NaN).

Example C31_example : format_5e (Fin (-99)) = lit "-9.90000e+01" /\
  str_of_int 1203 = lit "1203" /\ str_of_int (-1) = lit "-1" /\
  parse_int (lit "-9.90000e+01") = Err ValueError /\
  six_digit (-99) /\ format_5e NaN = lit "nan" /\
  count_below_last xlt (log_mah_target (loss_data ex_skipped)) 1 /\
  get_outline ex_skipped None
  = lit "-9.90000e+01 -9.90000e+01 -9.90000e+01 -9.90000e+01 -9.90000e+01 -9.90000e+01 1 -1" ++ [ascii_of_nat 10].
Proof.
  assert (HC : count_below_last xlt (log_mah_target (loss_data ex_skipped)) 1).
  { right. exists (Fin 12). split; [exists [Fin 11]; reflexivity|].
    exists [Fin 11]. split; [|reflexivity]. cbn.
    apply sub_keep; [apply Rltb_true; lra|]. apply sub_drop; [|apply sub_nil].
    intros HX. apply Rltb_true in HX. lra. }
  refine (conj sci_99 (conj eq_refl (conj eq_refl (conj eq_refl (conj six_99 (conj eq_refl (conj HC _))))))).
  rewrite outline_none. unfold out_fields. rewrite <- (count_below_fun _ _ _ _ HC (npts_any _)).
  cbn [p_best loss_best code_used ex_skipped logm0 logtc early_index late_index t_peak map app].
  rewrite sci_99. reflexivity.
Qed.

Example C33_example :
  let t := mkTable 8 [map lit ["1.5e1"; "2"; "3"; ".5"; "1e-3"; "nan"; "7"; "-1"]%string] in
  (forall j, (j < 6)%nat -> float_cells t j) /\ (forall j, (6 <= j < 8)%nat -> int_cells t j).
Proof.
  cbv zeta. split; intros j Hj r [<-|[]].
  - do 6 (destruct j as [|j]; [cbn [nth map]; eexists; reflexivity|]). lia.
  - do 6 (destruct j as [|j]; [lia|]). do 2 (destruct j as [|j]; [cbn [nth map]; eexists; reflexivity|]). lia.
Qed.
