(** From the simulated histories to the table of fits (C92). *)

From Coq Require Import Reals ZArith Lra Lia List Ascii String.
From Verif Require Import Model_Num RealAux Model_Base Model_Kernels Model_Fitter Model_Outline Model_MPI
  Spec_Kernels Spec_Fitter Spec_Outline Spec_MPI Spec_Data Spec_EndToEnd
  Proofs_Fitter Proofs_Fitter2 Proofs_Outline Proofs_Outline2 Props_Fitter Props_Stability Props_MPI.
Import ListNotations.
Local Open Scope R_scope.

Lemma forall2_nth {A B} (P : A -> B -> Prop) l l' i a : Forall2 P l l' -> nth_error l i = Some a ->
  exists b, nth_error l' i = Some b /\ P a b.
Proof.
  intros H. revert i. induction H as [|x y l l' H _ IH]; intros [|i]; cbn; try discriminate; auto.
  intros [= <-]. eauto.
Qed.

Lemma forall2_exists {A B} (P : A -> B -> Prop) l : (forall a, In a l -> exists b, P a b) -> exists l', Forall2 P l l'.
Proof.
  induction l as [|a l IH]; intros H; [exists []; constructor|].
  destruct (H a) as (b & Hb); [now left|]. destruct IH as (l' & Hl'); [intros; apply H; now right|].
  exists (b :: l'). now constructor.
Qed.

Lemma inject_inj (p q : DiffmahParams R) : inject p = inject q -> p = q.
Proof. destruct p as [a1 a2 a3 a4 a5], q as [b1 b2 b3 b4 b5]. unfold inject. cbn. congruence. Qed.

Lemma map_Fin_inj l l' : map Fin l = map Fin l' -> l = l'.
Proof.
  revert l'. induction l as [|a l IH]; intros [|b l']; cbn; try discriminate; auto.
  intros H. injection H as -> H. now rewrite (IH l' H).
Qed.

Lemma last_is_fun {A} (l : list A) a b : last_is l a -> last_is l b -> a = b.
Proof. intros (x & ->) (y & E). now apply app_inj_tail in E. Qed.

(** A skipped fit. *)
Lemma row_unfitted frs fr h i :
  (logm0 (p_best fr) = Fin (-99) /\ logtc (p_best fr) = Fin (-99) /\
   early_index (p_best fr) = Fin (-99) /\ late_index (p_best fr) = Fin (-99) /\
   t_peak (p_best fr) = Fin (-99) /\ loss_best fr = Fin (-99) /\
   fit_terminates fr = false /\ code_used fr = (-1)%Z) ->
  fit_columns frs h -> nth_error frs i = Some fr -> marked_unfitted h i.
Proof.
  intros (E0 & E1 & E2 & E3 & E4 & E5 & _ & E6) (l0 & l1 & l2 & l3 & l4 & l5 & ns' & -> & F0 & F1 & F2 & F3 & F4 & F5 & _) Hfr.
  destruct (forall2_nth _ _ _ _ _ F0 Hfr) as (x0 & N0 & R0). destruct (forall2_nth _ _ _ _ _ F1 Hfr) as (x1 & N1 & R1).
  destruct (forall2_nth _ _ _ _ _ F2 Hfr) as (x2 & N2 & R2). destruct (forall2_nth _ _ _ _ _ F3 Hfr) as (x3 & N3 & R3).
  destruct (forall2_nth _ _ _ _ _ F4 Hfr) as (x4 & N4 & R4). destruct (forall2_nth _ _ _ _ _ F5 Hfr) as (x5 & N5 & R5).
  assert (NC : nth_error (map code_used frs) i = Some (code_used fr)) by (rewrite nth_error_map, Hfr; reflexivity).
    rewrite E0 in R0. rewrite E1 in R1. rewrite E2 in R2. rewrite E3 in R3. rewrite E4 in R4. rewrite E5 in R5. rewrite E6 in NC.
    apply (reads_back_six _ _ six_99) in R0, R1, R2, R3, R4, R5. subst.
    unfold marked_unfitted, cell, int_cell.
    split; [exists l0; split; [cbn; tauto|assumption]|]. split; [exists l1; split; [cbn; tauto|assumption]|].
    split; [exists l2; split; [cbn; tauto|assumption]|]. split; [exists l3; split; [cbn; tauto|assumption]|].
    split; [exists l4; split; [cbn; tauto|assumption]|]. split; [exists l5; split; [cbn; tauto|assumption]|].
    exists (map code_used frs). split; [cbn; tauto|assumption].
Qed.

(** One row. *)
Lemma row_of_fit St f4 (adam : Adam St) (mini : Minimizer) c t lgm_min ns nw frs fr h i m :
  rounding f4 c -> starts_at_input adam -> honest_minimizer mini -> (0 < ns)%nat -> (forall x, In x t -> 0 < x) ->
  diffmah_fitter f4 adam mini (map Fin t) (map Fin m) (lgm_arg lgm_min) (Fin (25 / 10)) (Fin 1) ns nw None false = Ok fr ->
  fit_columns frs h -> nth_error frs i = Some fr -> describes c lgm_min t m h i.
Proof.
  intros HR HA HM Hn Hp E FC Hfr. pose proof FC as (l0 & l1 & l2 & l3 & l4 & l5 & ns' & Eh & F0 & F1 & F2 & F3 & F4 & F5 & F6).
  destruct (forall2_nth _ _ _ _ _ F0 Hfr) as (x0 & N0 & R0). destruct (forall2_nth _ _ _ _ _ F1 Hfr) as (x1 & N1 & R1).
  destruct (forall2_nth _ _ _ _ _ F2 Hfr) as (x2 & N2 & R2). destruct (forall2_nth _ _ _ _ _ F3 Hfr) as (x3 & N3 & R3).
  destruct (forall2_nth _ _ _ _ _ F4 Hfr) as (x4 & N4 & R4). destruct (forall2_nth _ _ _ _ _ F5 Hfr) as (x5 & N5 & R5).
  destruct (forall2_nth _ _ _ _ _ F6 Hfr) as (n & N6 & R6).
  assert (NC : nth_error (map code_used frs) i = Some (code_used fr)) by (rewrite nth_error_map, Hfr; reflexivity).
  destruct (C22_sentinel_iff_skipped _ _ _ _ _ _ _ _ _ _ _ _ _ _ E) as (S1 & S2).
  pose proof (C22_skip_iff_too_little_data _ _ _ _ _ _ _ _ _ _ _ _ _ _ E) as SK.
  destruct (C23_target_is_masked_running_maximum St f4 adam mini c t m lgm_min (25 / 10) 1 ns nw None false fr (proj1 HR) Hp E)
    as (lf & pts & r & T1 & T2 & T3 & T4 & T5 & _).
  assert (NN : count_below_last Rlt r n).
  { rewrite T5 in R6. rewrite (count_below_fun _ _ _ _ R6 (npts_any _)). apply npts_fin. }
  assert (SK' : skip_fit fr = true <-> (n < 3)%nat).
  { rewrite SK. split; [intros [D|(n' & D & D')]; [discriminate|]|eauto]. now rewrite (count_below_fun _ _ _ _ R6 D). }
  exists lf, pts, r, n. split; [exact T1|]. split; [exact T2|]. split; [exact T3|]. split; [exact NN|].
  split. { exists (map Z.of_nat ns'). split; [rewrite Eh; cbn; tauto|]. rewrite nth_error_map, N6. reflexivity. }
  split.
  - intros L. apply SK' in L. apply (row_unfitted frs fr); [exact (S1 L)|exact FC|exact Hfr].
  - intros L. assert (ES : skip_fit fr = false) by (destruct (skip_fit fr); [assert (n < 3)%nat by (apply SK'; reflexivity); lia|reflexivity]).
    destruct (S2 ES) as (C & _). split.
    { destruct C as [C|C]; rewrite C in NC; [left|right]; exists (map code_used frs); (split; [rewrite Eh; cbn; tauto|assumption]). }
    intros tp tl TL Hl HW Ht.
    destruct (C26_fitted_parameters_legal St f4 adam mini c t m lgm_min (25 / 10) 1 ns nw None false fr lf tp
      HR HA HM Hn Hp T1 Hl HW Ht E ES) as (p & EP & LP & TP).
    destruct (C62_reported_loss St f4 adam mini c t m lgm_min (25 / 10) 1 ns nw None false fr lf tp
      HR HA HM Hn Hp T1 Hl HW Ht E ES) as (p' & tl' & ts & ys & EP' & TL' & X1 & X2 & LB & _).
    rewrite EP in EP'. apply inject_inj in EP'. subst p'. rewrite (last_is_fun _ _ _ TL' TL) in LB.
    rewrite T4 in X1. rewrite T5 in X2. apply map_Fin_inj in X1, X2. subst ts ys.
    rewrite EP in R0, R1, R2, R3, R4. unfold inject in R0, R1, R2, R3, R4.
    cbn [logm0 logtc early_index late_index t_peak] in R0, R1, R2, R3, R4.
    destruct (text_close p x0 x1 x2 x3 x4 LP R0 R1 R2 R3 R4) as (q & -> & -> & -> & -> & -> & Q).
    rewrite LB in R5. destruct R5 as (x & -> & NX). apply nearest_rel in NX.
    exists p, q, x. split; [exact LP|]. split; [exact TP|]. split; [|split; [exact Q|]].
    + unfold holds_params, cell.
      split; [exists l0; split; [rewrite Eh; cbn; tauto|assumption]|]. split; [exists l1; split; [rewrite Eh; cbn; tauto|assumption]|].
      split; [exists l2; split; [rewrite Eh; cbn; tauto|assumption]|]. split; [exists l3; split; [rewrite Eh; cbn; tauto|assumption]|].
      exists l4; split; [rewrite Eh; cbn; tauto|assumption].
    + split; [exists l5; split; [rewrite Eh; cbn; tauto|assumption]|exact NX].
Qed.

Lemma row_describes St f4 (adam : Adam St) (mini : Minimizer) c t mahs lgm_min ns nw frs h i m :
  rounding f4 c -> starts_at_input adam -> honest_minimizer mini -> (0 < ns)%nat -> (forall x, In x t -> 0 < x) ->
  Forall2 (fun mah fr => diffmah_fitter f4 adam mini (map Fin t) mah (lgm_arg lgm_min) (Fin (25 / 10)) (Fin 1) ns nw None false = Ok fr)
    (map (map Fin) mahs) frs ->
  fit_columns frs h -> nth_error mahs i = Some m -> describes c lgm_min t m h i.
Proof.
  intros HR HA HM Hn Hp HF FC Hm. destruct (forall2_nth _ _ _ i (map Fin m) HF) as (fr & Hfr & E).
  { rewrite nth_error_map, Hm. reflexivity. }
  exact (row_of_fit St f4 adam mini c t lgm_min ns nw frs fr h i m HR HA HM Hn Hp E FC Hfr).
Qed.

Lemma fits_exist St f4 (adam : Adam St) (mini : Minimizer) (t : list R) (mahs : list (list R)) lgm cut tmin ns nw :
  t <> [] -> (forall m, In m mahs -> List.length m = List.length t) -> (0 < ns)%nat ->
  exists frs, Forall2 (fun mah fr => diffmah_fitter f4 adam mini (map Fin t) mah lgm cut tmin ns nw None false = Ok fr)
    (map (map Fin) mahs) frs.
Proof.
  intros Ht HL Hn. apply forall2_exists. intros a Ha. apply in_map_iff in Ha. destruct Ha as (m & <- & Hm).
  destruct (C22_never_raises St f4 adam mini (map Fin t) (map Fin m) lgm cut tmin ns nw None false) as (_ & _ & K).
  apply K; [rewrite !map_length; auto| |exact Hn].
  intros E. apply map_eq_nil in E. subst. specialize (HL [] Hm). destruct t; [now apply Ht|discriminate].
Qed.

Lemma cell_more h h' n i x : (forall e, In e h -> In e h') -> cell h n i x -> cell h' n i x.
Proof. intros H (l & L & E). exists l. auto. Qed.
Lemma int_cell_more h h' n i x : (forall e, In e h -> In e h') -> int_cell h n i x -> int_cell h' n i x.
Proof. intros H (l & L & E). exists l. auto. Qed.
Lemma describes_more c g t m h h' i : (forall e, In e h -> In e h') -> describes c g t m h i -> describes c g t m h' i.
Proof.
  intros H. pose proof (fun n x => cell_more h h' n i x H) as C. pose proof (fun n x => int_cell_more h h' n i x H) as I.
  intros (l0 & pts & r & n & A1 & A2 & A3 & A4 & A5 & A6 & A7). exists l0, pts, r, n.
  split; [exact A1|]. split; [exact A2|]. split; [exact A3|]. split; [exact A4|]. split; [auto|]. split.
  - intros L. destruct (A6 L) as (D1 & D2 & D3 & D4 & D5 & D6 & D7). unfold marked_unfitted. auto 20.
  - intros L. destruct (A7 L) as (D1 & D2). split; [destruct D1; auto|]. intros tp tl B1 B2 B3 B4.
    destruct (D2 tp tl B1 B2 B3 B4) as (p & q & x & P1 & P2 & (Q1 & Q2 & Q3 & Q4 & Q5) & P3 & P4 & P5).
    exists p, q, x. unfold holds_params. auto 20.
Qed.

(** ** C92 *)

(** scripts/fitting_scripts/tng_diffmah_fitter_script.py:80: cfh.diffmah_fitter(tarr, mah),
    with the defaults of diffmah_fitter_helpers.py:39-49. *)
Definition tng_fitter {St} f4 (adam : Adam St) (mini : Minimizer) (t : list R) (mah : list xr) : res FitResult :=
  diffmah_fitter f4 adam mini (map Fin t) mah (lgm_arg None) (Fin (25 / 10)) (Fin 1) 200 1 None false.

Theorem C92_tng : forall St f4 (adam : Adam St) (mini : Minimizer) c eager nranks outdir t mahs f,
  rounding f4 c -> starts_at_input adam -> honest_minimizer mini ->
  t <> [] -> (forall x, In x t -> 0 < x) -> (forall m, In m mahs -> List.length m = List.length t) ->
  (0 < nranks)%nat -> (2 * nranks <= List.length mahs)%nat ->
  every_run eager nranks (start (tng_main (tng_fitter f4 adam mini t) outdir (map (map Fin) mahs) nranks) f) (fun s =>
    all_return nranks s (fun _ => tt) /\
    exists h, fs s (outdir, lit "diffmah_tng_fits.hdf5") = Some (H5 h) /\
      forall i m, nth_error mahs i = Some m -> describes c None t m h i).
Proof.
  intros St f4 adam mini c eager nranks outdir t mahs f HR HA HM Ht Hp HL Hn H2.
  destruct (fits_exist St f4 adam mini t mahs (lgm_arg None) (Fin (25 / 10)) (Fin 1) 200 1 Ht HL ltac:(lia)) as (frs & HF).
  destruct (C51_tng eager nranks (tng_fitter f4 adam mini t) outdir (map (map Fin) mahs) frs f Hn) as [B R].
  - now rewrite map_length.
  - exact HF.
  - split; [exact B|]. intros k s' S N. destruct (R k s' S N) as (A & _ & (h & Eh & FC) & _).
    split; [exact A|]. exists h. split; [exact Eh|]. intros i m Hm.
    apply (row_describes St f4 adam mini c t mahs None 200 1 frs h i m); auto. lia.
Qed.
Print Assumptions C92_tng.

(** scripts/fitting_scripts/bolshoi_planck_fitting_script.py:91-98: [lgm_min] is the [g] that
    the loader returns, [t_fit_min] is load_bpl_um_data.py:27. *)
Definition bpl_fitter {St} f4 (adam : Adam St) (mini : Minimizer) (t : list R) (g : R) (mah : list xr) : res FitResult :=
  diffmah_fitter f4 adam mini (map Fin t) mah (lgm_arg (Some g)) (Fin (25 / 10)) (Fin 1) 200 1 None false.

Theorem C92_bolshoi : forall St f4 (adam : Adam St) (mini : Minimizer) c eager nranks outdir t g ids mahs f,
  rounding f4 c -> starts_at_input adam -> honest_minimizer mini ->
  t <> [] -> (forall x, In x t -> 0 < x) -> (forall m, In m mahs -> List.length m = List.length t) ->
  (0 < nranks)%nat -> List.length ids = List.length mahs -> (2 * nranks <= List.length mahs)%nat ->
  every_run eager nranks (start (bpl_main (bpl_fitter f4 adam mini t g) outdir ids (map (map Fin) mahs) (map Fin t) nranks) f) (fun s =>
    all_return nranks s (fun _ => tt) /\
    exists h, fs s (outdir, lit "diffmah_fits.hdf5") = Some (H5 h) /\
      forall i m id, nth_error mahs i = Some m -> nth_error ids i = Some id ->
        int_cell h "halo_id" i id /\ describes c (Some g) t m h i).
Proof.
  intros St f4 adam mini c eager nranks outdir t g ids mahs f HR HA HM Ht Hp HL Hn HI H2.
  destruct (fits_exist St f4 adam mini t mahs (lgm_arg (Some g)) (Fin (25 / 10)) (Fin 1) 200 1 Ht HL ltac:(lia)) as (frs & HF).
  destruct (C51_bolshoi eager nranks (bpl_fitter f4 adam mini t g) outdir ids (map (map Fin) mahs) (map Fin t) frs f Hn) as [B R].
  - now rewrite map_length.
  - now rewrite map_length.
  - exact HF.
  - split; [exact B|]. intros k s' S N. destruct (R k s' S N) as (A & _ & (h & Eh & h' & -> & FC) & _).
    split; [exact A|]. exists ((lit "halo_id", IntCol ids) :: h'). split; [exact Eh|]. intros i m id Hm Hid.
    split; [exists ids; split; [now left|exact Hid]|].
    pose proof (row_describes St f4 adam mini c t mahs (Some g) 200 1 frs h' i m HR HA HM ltac:(lia) Hp HF FC Hm) as D.
    revert D. apply describes_more. intros x Hx. now right.
Qed.
Print Assumptions C92_bolshoi.

(** Last Journey (hacc_lastjourney_diffmah_fitter_script.py:113, defaults again): every chunk
    of every subvolume has its table. *)
Theorem C92_lastjourney : forall St f4 (adam : Adam St) (mini : Minimizer) c eager nranks outdir nchunks subvols
    (times : Z -> Z -> list R) (mahs : Z -> Z -> list (list R)) f,
  rounding f4 c -> starts_at_input adam -> honest_minimizer mini -> (0 < nranks)%nat ->
  (forall s k, In s subvols -> (0 <= k < nchunks)%Z ->
     times s k <> [] /\ (forall x, In x (times s k) -> 0 < x) /\
     (forall m, In m (mahs s k) -> List.length m = List.length (times s k)) /\ (2 * nranks <= List.length (mahs s k))%nat) ->
  every_run eager nranks (start (lastjourney_main
      (fun tarr mah => diffmah_fitter f4 adam mini tarr mah (lgm_arg None) (Fin (25 / 10)) (Fin 1) 200 1 None false)
      (fun s k => Ok (map Fin (times s k), map (map Fin) (mahs s k))) outdir nchunks subvols nranks) f) (fun st =>
    all_return nranks st (fun _ => tt) /\
    forall s k, In s subvols -> (0 <= k < nchunks)%Z ->
    exists h, fs st (outdir, chunk_name (List.length (str_of_int nchunks)) s k ++ lit ".hdf5")%list = Some (H5 h) /\
      forall i m, nth_error (mahs s k) i = Some m -> describes c None (times s k) m h i).
Proof.
  intros St f4 adam mini c eager nranks outdir nchunks subvols times mahs f HR HA HM Hn HG.
  pose (fit := fun tarr mah => diffmah_fitter f4 adam mini tarr mah (lgm_arg None) (Fin (25 / 10)) (Fin 1) 200 1 None false).
  pose (frs := fun s k => List.concat (map (fun m => match fit (map Fin (times s k)) m with Ok fr => [fr] | Err _ => [] end) (map (map Fin) (mahs s k)))).
  assert (HF : forall s k, In s subvols -> (0 <= k < nchunks)%Z ->
    Forall2 (fun mah fr => fit (map Fin (times s k)) mah = Ok fr) (map (map Fin) (mahs s k)) (frs s k)).
  { intros s k Hs Hk. destruct (HG s k Hs Hk) as (G1 & _ & G3 & _).
    destruct (fits_exist St f4 adam mini (times s k) (mahs s k) (lgm_arg None) (Fin (25 / 10)) (Fin 1) 200 1 G1 G3 ltac:(lia)) as (l & Hl).
    assert (E : frs s k = l); [|rewrite E; exact Hl]. unfold frs. fold fit in Hl.
    clear -Hl. induction Hl as [|a b ms l E _ IH]; [reflexivity|]. cbn [map List.concat]. unfold fit. rewrite E. cbn [app]. now f_equal. }
  destruct (C51_lastjourney eager nranks fit (fun s k => Ok (map Fin (times s k), map (map Fin) (mahs s k))) outdir nchunks subvols frs f Hn) as [B R].
  - intros s k Hs Hk. destruct (HG s k Hs Hk) as (_ & _ & _ & G4).
    exists (map Fin (times s k)), (map (map Fin) (mahs s k)). split; [reflexivity|]. split; [now rewrite map_length|]. now apply HF.
  - split; [exact B|]. intros k0 s' S N. destruct (R k0 s' S N) as (A & _ & (C & _)).
    split; [exact A|]. intros s k Hs Hk. destruct (C s k (conj Hs Hk)) as (h & Eh & FC). exists h. split; [exact Eh|].
    intros i m Hm. destruct (HG s k Hs Hk) as (_ & G2 & _).
    apply (row_describes St f4 adam mini c (times s k) (mahs s k) None 200 1 (frs s k) h i m); auto; [lia|].
    now apply HF.
Qed.
Print Assumptions C92_lastjourney.

(** Galacticus.  The halos have their own times; [halos] are their times and masses, [T0]
    the latest of all times, [dt] the smallest span fitted.
    scripts/fitting_scripts/galacticus_diffmah_fitter_script.py:101-103. *)
Definition galacticus_fitter {St} f4 (adam : Adam St) (mini : Minimizer) (t mah : list xr) (skip : bool) : res FitResult :=
  diffmah_fitter f4 adam mini t mah (lgm_arg None) (Fin (25 / 10)) (Fin 1) 200 1 None skip.

Lemma rev_head (l : list R) x : last_is l x -> hd_error (rev (map Fin l)) = Some (Fin x).
Proof. intros (l' & ->). rewrite map_app, rev_app_distr. reflexivity. Qed.

Lemma has_last {A} (l : list A) : l <> [] -> exists x, last_is l x.
Proof. intros H. destruct (exists_last H) as (l' & x & ->). exists x, l'. reflexivity. Qed.

Theorem C92_galacticus : forall St f4 (adam : Adam St) (mini : Minimizer) c eager nranks outdir out dt T0
    (halos : list (list R * list R)) f,
  rounding f4 c -> starts_at_input adam -> honest_minimizer mini ->
  (forall t m, In (t, m) halos -> t <> [] /\ (forall x, In x t -> 0 < x) /\ List.length m = List.length t) ->
  (exists t m, In (t, m) halos /\ last_is t T0) -> (forall t m x, In (t, m) halos -> last_is t x -> x <= T0) ->
  (0 < nranks)%nat -> (2 * nranks <= List.length halos)%nat -> ~ temp_file (lit "tmp_mah_fits_rank_") out ->
  every_run eager nranks (start (galacticus_main (galacticus_fitter f4 adam mini) (Fin dt) outdir out
      (map (fun tm => (map Fin (fst tm), map Fin (snd tm))) halos) nranks) f) (fun s =>
    all_return nranks s (fun _ => tt) /\
    exists h, fs s (outdir, out) = Some (H5 h) /\
      forall i t m, nth_error halos i = Some (t, m) ->
        exists t1 tl r ml, hd_error t = Some t1 /\ last_is t tl /\ running_max m r /\ last_is r ml /\
          (tl - t1 < dt -> marked_unfitted h i) /\
          (dt <= tl - t1 -> tl < T0 -> describes c None (t ++ [T0]) (r ++ [ml]) h i) /\
          (dt <= tl - t1 -> tl = T0 -> describes c None t r h i)).
Proof.
  intros St f4 adam mini c eager nranks outdir out dt T0 halos f HR HA HM HG (tL & mL & InL & LL) HT Hn H2 HO.
  pose (inj := fun tm : list R * list R => (map Fin (fst tm), map Fin (snd tm))). fold inj.
  pose (fit := fun (tm : list R * list R) fr => exists t1 tl r ml,
    hd_error (fst tm) = Some t1 /\ last_is (fst tm) tl /\ running_max (snd tm) r /\ last_is r ml /\
    maximum_accumulate (map Fin (snd tm)) = map Fin r /\
    ((tl < T0 /\ galacticus_fitter f4 adam mini (map Fin (fst tm ++ [T0])) (map Fin (r ++ [ml])) (Rltb (tl - t1) dt) = Ok fr) \/
     (tl = T0 /\ galacticus_fitter f4 adam mini (map Fin (fst tm)) (map Fin r) (Rltb (tl - t1) dt) = Ok fr))).
  assert (HE : exists frs, Forall2 fit halos frs).
  { apply forall2_exists. intros (t & m) Hin. destruct (HG t m Hin) as (G1 & G2 & G3). unfold fit. cbn [fst snd].
    destruct (has_last t G1) as (tl & Htl). destruct t as [|t1 t'] eqn:Et; [now destruct G1|]. rewrite <- Et in *.
    destruct (maximum_accumulate_fin m) as (r & Er & Hr).
    assert (Lr : List.length r = List.length t) by (rewrite (proj1 Hr); exact G3).
    assert (Nr : r <> []) by (intros ->; rewrite Et in Lr; discriminate).
    destruct (has_last r Nr) as (ml & Hml).
    destruct (Rle_lt_or_eq_dec tl T0 (HT t m tl Hin Htl)) as [L|EQ].
    - destruct (C22_never_raises St f4 adam mini (map Fin (t ++ [T0])) (map Fin (r ++ [ml])) (lgm_arg None) (Fin (25 / 10)) (Fin 1)
        200 1 None (Rltb (tl - t1) dt)) as (_ & _ & K).
      destruct K as (fr & K); [rewrite !map_length, !app_length; cbn; lia|destruct r; discriminate|lia|].
      exists fr, t1, tl, r, ml. rewrite Et at 1. cbn [hd_error]. auto 10.
    - destruct (C22_never_raises St f4 adam mini (map Fin t) (map Fin r) (lgm_arg None) (Fin (25 / 10)) (Fin 1)
        200 1 None (Rltb (tl - t1) dt)) as (_ & _ & K).
      destruct K as (fr & K); [rewrite !map_length; lia|destruct r; [now destruct Nr|discriminate]|lia|].
      exists fr, t1, tl, r, ml. rewrite Et at 1. cbn [hd_error]. auto 10. }
  destruct HE as (frs & HF).
  destruct (C51_galacticus eager nranks (galacticus_fitter f4 adam mini) (Fin dt) outdir out (map inj halos) (Fin T0) frs f Hn) as [B R].
  - now rewrite map_length.
  - assert (HLs : exists lasts, Forall2 (fun (tm : list R * list R) x => last_is (fst tm) x) halos lasts).
    { apply forall2_exists. intros (t & m) Hin. destruct (HG t m Hin) as (G1 & _). now apply has_last. }
    destruct HLs as (lasts & HLs). exists (map Fin lasts). split; [|split; [|split]].
    + clear -HLs. induction HLs as [|tm x l l' H _ IH]; cbn [map]; constructor; [|exact IH].
      cbn [inj fst]. now apply rev_head.
    + intros N. apply in_map_iff in N. destruct N as (x & X & _). discriminate.
    + apply in_map. apply In_nth_error in InL. destruct InL as (j & Hj).
      destruct (forall2_nth _ _ _ _ _ HLs Hj) as (x & Hx & Lx). cbn [fst] in Lx.
      rewrite (last_is_fun _ _ _ LL Lx). now apply nth_error_In in Hx.
    + intros x Hx. apply in_map_iff in Hx. destruct Hx as (y & <- & Hy).
      assert (K : forall hs l, Forall2 (fun (tm : list R * list R) x => last_is (fst tm) x) hs l -> In y l ->
        exists tm, In tm hs /\ last_is (fst tm) y).
      { clear. intros hs l H. induction H as [|tm x l l' H _ IH]; [intros []|]. intros [<-|Hy].
        - exists tm. split; [now left|exact H].
        - destruct (IH Hy) as (tm' & I1 & I2). exists tm'. split; [now right|exact I2]. }
      destruct (K halos lasts HLs Hy) as ((t & m) & I1 & I2).
      pose proof (HT t m y I1 I2). unfold Spec_Data.xle. cbn. lra.
  - clear -HF. induction HF as [|(t & m) fr l l' H _ IH]; cbn [map]; constructor; [|exact IH].
    destruct H as (t1 & tl & r & ml & A1 & A2 & A3 & A4 & A5 & A6). cbn [fst snd] in *.
    exists (Fin t1), (Fin tl), (Rltb (tl - t1) dt). unfold inj. cbn [fst snd].
    split; [destruct t; cbn in *; congruence|]. split; [now apply rev_head|].
    split; [unfold xlt; cbn; reflexivity|]. rewrite A5.
    destruct A6 as [(L & K)|(EQ & K)].
    + left. split; [unfold xlt; cbn; now apply Rltb_true|]. exists (Fin ml). split; [now apply rev_head|].
      now rewrite !map_app in K.
    + right. split; [unfold xlt; cbn; intros X; apply Rltb_true in X; lra|exact K].
  - exact HO.
  - split; [exact B|]. intros k s' S N. destruct (R k s' S N) as (A & _ & (h & Eh & FC) & _).
    split; [exact A|]. exists h. split; [exact Eh|]. intros i t m Hm.
    destruct (forall2_nth _ _ _ i (t, m) HF Hm) as (fr & Hfr & t1 & tl & r & ml & A1 & A2 & A3 & A4 & A5 & A6). cbn [fst snd] in *.
    apply nth_error_In in Hm. destruct (HG t m Hm) as (_ & G2 & _).
    assert (T0P : 0 < T0).
    { destruct (HG tL mL InL) as (_ & G & _). apply G. destruct LL as (l' & ->). apply in_or_app. right. now left. }
    exists t1, tl, r, ml. split; [exact A1|]. split; [exact A2|]. split; [exact A3|]. split; [exact A4|]. split; [|split].
    + intros L. apply Rltb_true in L. rewrite L in A6.
      destruct A6 as [(_ & K)|(_ & K)]; (apply (row_unfitted frs fr); [|exact FC|exact Hfr]);
        apply (C22_sentinel_iff_skipped _ _ _ _ _ _ _ _ _ _ _ _ _ _ K);
        apply (C22_skip_iff_too_little_data _ _ _ _ _ _ _ _ _ _ _ _ _ _ K); now left.
    + intros D L. apply Rltb_false in D. rewrite D in A6. destruct A6 as [(_ & K)|(E & _)]; [|lra].
      apply (row_of_fit St f4 adam mini c (t ++ [T0]) None 200 1 frs fr h i (r ++ [ml])); auto; [lia|].
      intros x Hx. apply in_app_or in Hx. destruct Hx as [Hx|[<-|[]]]; auto.
    + intros D L. apply Rltb_false in D. rewrite D in A6. destruct A6 as [(L' & _)|(_ & K)]; [lra|].
      apply (row_of_fit St f4 adam mini c t None 200 1 frs fr h i r); auto. lia.
Qed.
Print Assumptions C92_galacticus.

(** Two histories of four snapshots on one rank; the first reaches its mass at the end. *)
Example C92_example :
  rounding (fun x => x) (fun r => r) /\ starts_at_input ex_adam /\ honest_minimizer ex_mini /\
  ex_t <> [] /\ (forall x, In x ex_t -> 0 < x) /\
  (forall m, In m [ex_m; ex_m] -> List.length m = List.length ex_t) /\ (2 * 1 <= List.length [ex_m; ex_m])%nat /\
  last_is (floored None ex_m) 14 /\ first_attained (fun r => r) ex_t (floored None ex_m) 14 4.
Proof.
  destruct C22_to_C62_example as (A & B & C & D & E & F & _).
  split; [exact A|]. split; [exact B|]. split; [exact C|]. split; [discriminate|]. split; [exact D|].
  split; [intros m [<-|[<-|[]]]; reflexivity|]. split; [cbn; lia|]. split; [exact E|exact F].
Qed.

(** Galacticus halos, the second of which ends early. *)
Example C92_example_galacticus : let halos := [(ex_t, ex_m); ([1; 2; 3], [pow10 11; pow10 12; pow10 13])] in
  (forall t m, In (t, m) halos -> t <> [] /\ (forall x, In x t -> 0 < x) /\ List.length m = List.length t) /\
  (exists t m, In (t, m) halos /\ last_is t 4) /\ (forall t m x, In (t, m) halos -> last_is t x -> x <= 4) /\
  (2 * 1 <= List.length halos)%nat /\ ~ temp_file (lit "tmp_mah_fits_rank_") (lit "fits.hdf5").
Proof.
  cbn [In]. split; [|split; [|split; [|split]]].
  - intros t m [E|[E|[]]]; injection E as <- <-; (split; [discriminate|]); (split; [|reflexivity]); intros x; unfold ex_t; cbn [In];
      intros H; repeat (destruct H as [H|H]; [subst x; lra|]); destruct H.
  - exists ex_t, ex_m. split; [now left|]. exists [1; 2; 3]. reflexivity.
  - intros t m x [E|[E|[]]] L; injection E as <- <-.
    + assert (L' : last_is ex_t 4) by (exists [1; 2; 3]; reflexivity). rewrite (last_is_fun _ _ _ L L'). lra.
    + assert (L' : last_is [1; 2; 3] 3) by (exists [1; 2]; reflexivity). rewrite (last_is_fun _ _ _ L L'). lra.
  - cbn. lia.
  - intros (mid & E & _). discriminate E.
Qed.
