(** Distributions of the peak time. *)

From Coq Require Import Reals String List Bool Arith ZArith Lia Lra Sorting.Sorted.
From Coquelicot Require Import Coquelicot.
From Verif Require Import Model_Num RealAux Model_Base Model_Kernels Model_Utils Model_PopBase Model_PopData
  Model_PopParams Model_PopKernels Proofs_Kernels Spec_Utils Spec_Pop Spec_TruncNorm Proofs_PopBase Proofs_PopParams
  Proofs_PopAll Proofs_PopInterp Proofs_PopKernels.
Import ListNotations.
Local Open Scope R_scope.
Local Open Scope string_scope.

(** ** The truncated normal *)

Lemma gauss_pos t : 0 < gauss t.
Proof. apply exp_pos. Qed.

Lemma gauss_continuous t : continuous gauss t.
Proof.
  apply (ex_derive_continuous gauss). unfold gauss. auto_derive. exact I.
Qed.

Lemma gauss_int a b : ex_RInt gauss a b.
Proof. apply (ex_RInt_continuous gauss). intros; apply gauss_continuous. Qed.

Lemma gauss_RInt_pos a b : a < b -> 0 < RInt gauss a b.
Proof. intros H. apply RInt_gt_0; [exact H| |]; intros; [apply gauss_pos|apply gauss_continuous]. Qed.

Lemma gauss_RInt_lt a y z : y < z -> RInt gauss a y < RInt gauss a z.
Proof.
  intros H. rewrite <- (RInt_Chasles gauss a y z) by apply gauss_int.
  pose proof (gauss_RInt_pos y z H) as Hp. change (RInt gauss a y < RInt gauss a y + RInt gauss y z). lra.
Qed.

Lemma truncnorm_range x a b loc scale : a < b -> 0 <= truncnorm_cdf_R x a b loc scale <= 1.
Proof.
  intros H. unfold truncnorm_cdf_R. cbv zeta. destruct Rle_dec; [lra|]. destruct Rle_dec; [lra|].
  pose proof (gauss_RInt_pos a b H). set (z := (x - loc) / scale) in *.
  pose proof (gauss_RInt_pos a z ltac:(lra)). pose proof (gauss_RInt_lt a z b ltac:(lra)).
  split.
  - apply Rmult_le_pos; [lra|]. left. now apply Rinv_0_lt_compat.
  - apply Rmult_le_reg_r with (RInt gauss a b); [assumption|]. unfold Rdiv. rewrite Rmult_assoc, Rinv_l by lra. lra.
Qed.

Lemma truncnorm_mono x y a b loc scale : a < b -> 0 < scale -> x <= y ->
  truncnorm_cdf_R x a b loc scale <= truncnorm_cdf_R y a b loc scale.
Proof.
  intros Hab Hs Hxy.
  assert (Hz : (x - loc) / scale <= (y - loc) / scale).
  { apply Rmult_le_compat_r; [left; now apply Rinv_0_lt_compat|lra]. }
  pose proof (truncnorm_range x a b loc scale Hab) as Rx. pose proof (truncnorm_range y a b loc scale Hab) as Ry.
  unfold truncnorm_cdf_R in *. cbv zeta in *.
  set (z := (x - loc) / scale) in *. set (w := (y - loc) / scale) in *.
  repeat destruct Rle_dec; try lra.
  pose proof (gauss_RInt_pos a b Hab).
  apply Rmult_le_compat_r; [left; now apply Rinv_0_lt_compat|].
  destruct (Req_dec z w) as [->|]; [lra|]. left. apply gauss_RInt_lt. lra.
Qed.

(** Strictly increasing on the support. *)
Lemma truncnorm_strict x y a b loc scale : a < b -> 0 < scale ->
  a <= (x - loc) / scale -> (y - loc) / scale <= b -> x < y ->
  truncnorm_cdf_R x a b loc scale < truncnorm_cdf_R y a b loc scale.
Proof.
  intros Hab Hs Ha Hb Hxy.
  assert (Hz : (x - loc) / scale < (y - loc) / scale).
  { apply Rmult_lt_compat_r; [now apply Rinv_0_lt_compat|lra]. }
  unfold truncnorm_cdf_R. cbv zeta.
  set (z := (x - loc) / scale) in *. set (w := (y - loc) / scale) in *.
  pose proof (gauss_RInt_pos a b Hab) as Hp. pose proof (Rinv_0_lt_compat _ Hp) as Hi.
  destruct (Rle_dec z a), (Rle_dec w a), (Rle_dec b z), (Rle_dec b w); try lra.
  - apply Rmult_lt_0_compat; [|exact Hi]. apply gauss_RInt_pos. lra.
  - apply Rmult_lt_reg_r with (RInt gauss a b); [exact Hp|]. unfold Rdiv. rewrite Rmult_assoc, Rinv_l by lra.
    rewrite Rmult_1_r, Rmult_1_l. apply gauss_RInt_lt. lra.
  - apply Rmult_lt_compat_r; [exact Hi|]. apply gauss_RInt_lt. lra.
Qed.

(** ** Peak time of centrals *)

Lemma Ok_inj {A} (x y : A) : Ok x = Ok y -> x = y.
Proof. now intros [=]. Qed.

Lemma utp_x0_ok p lgm t : provides TPCENS_FLEX p ->
  exists x0, get_utp_x0_from_lgm p lgm t = Ok x0 /\ 1/2 < x0 < 18/10.
Proof.
  intros H. unfold get_utp_x0_from_lgm.
  fld H "cen_tp_lgm_x0_x0" a Ea Ba. fld H "cen_tp_x0_ylo_early" b Eb Bb. fld H "cen_tp_x0_yhi_early" c Ec Bc.
  fld H "cen_tp_x0_ylo_late" d Ed Bd. fld H "cen_tp_x0_yhi_late" e Ee Be. fld H "cen_tp_t_obs_x0_x0" g Eg Bg.
  eexists. split; [reflexivity|]. apply sigmoid_range; apply sigmoid_range; lra.
Qed.

Local Notation TAB := (linspace 0%R 1%R 200).

Definition FP (x0 u : R) : R := sigmoid u x0 TPC_K TPC_YLO TPC_YHI.

Lemma FP_strict x0 u v : u < v -> FP x0 u < FP x0 v.
Proof.
  intros H. unfold FP. rewrite !sigmoid_R. unfold TPC_K, TPC_YLO, TPC_YHI. cbn [nconst Num_R].
  assert (logistic (5 * (u - x0)) < logistic (5 * (v - x0))) by (apply logistic_lt; lra). lra.
Qed.

Lemma utp_table : (UTP_TABLE : list R) = linspace 0 1 200.
Proof. reflexivity. Qed.

Lemma utp_of_uran_eval p lgm t : provides TPCENS_FLEX p ->
  exists x0, forall u, utp_of_uran p lgm t u = Ok (Rmax (interp u (map (FP x0) TAB) TAB) (5/100)) /\
  (forall l, frac_peaked_vs_lgm p l lgm t = Ok (map (FP x0) l)).
Proof.
  intros H. destruct (utp_x0_ok p lgm t H) as (x0 & E & B). exists x0. intros u.
  unfold utp_of_uran, frac_peaked_vs_lgm. rewrite E. cbn [bind]. rewrite utp_table, clip_min_R. split; reflexivity.
Qed.

Lemma FP_table_sorted x0 : sorted (map (FP x0) TAB).
Proof.
  apply sorted_map; [|apply linspace_sorted; lra]. intros x y [Hxy| ->]; [|lra]. left. now apply FP_strict.
Qed.

Lemma len200 : List.length TAB = 200%nat.
Proof. apply linspace_length. Qed.

Lemma cen_table_facts x0 u v :
  let I := fun u => interp u (map (FP x0) TAB) TAB in
  0 <= I u <= 1 /\ (u <= v -> I u <= I v).
Proof.
  intros I. assert (S1 := FP_table_sorted x0). assert (S2 := linspace_sorted 0 1 200 ltac:(lra)).
  assert (HL : List.length TAB = List.length (map (FP x0) TAB)) by now rewrite map_length.
  assert (Hn : (2 <= List.length (map (FP x0) TAB))%nat) by (rewrite map_length, len200; lia).
  split.
  - pose proof (interp_range u _ _ S1 S2 HL Hn) as Hr. rewrite len200 in Hr.
    rewrite linspace_first, linspace_last in Hr by lia. exact Hr.
  - intros Huv. now apply interp_mono.
Qed.

Lemma cen_tpeak_range p lgm t t0 u : provides TPCENS_FLEX p -> 0 <= t0 ->
  exists tp, tpeak_cen_of_uran p lgm t t0 u = Ok tp /\ 5/100 * t0 <= tp <= t0.
Proof.
  intros H Ht. destruct (utp_of_uran_eval p lgm t H) as (x0 & E). destruct (E u) as [Eu _].
  unfold tpeak_cen_of_uran. rewrite Eu. cbn [bind]. eexists. split; [reflexivity|]. cbn [nmul Num_R].
  destruct (cen_table_facts x0 u u) as [Hr _]. cbv zeta in Hr.
  set (r := interp u _ _) in *. assert (5/100 <= Rmax r (5/100) <= 1) by (unfold Rmax; destruct Rle_dec; lra).
  nra.
Qed.

Lemma cen_tpeak_mono p lgm t t0 u v tp tp' : provides TPCENS_FLEX p -> 0 <= t0 -> u <= v ->
  tpeak_cen_of_uran p lgm t t0 u = Ok tp -> tpeak_cen_of_uran p lgm t t0 v = Ok tp' -> tp <= tp'.
Proof.
  intros H Ht Huv. destruct (utp_of_uran_eval p lgm t H) as (x0 & E). destruct (E u) as [Eu _]. destruct (E v) as [Ev _].
  unfold tpeak_cen_of_uran. rewrite Eu, Ev. cbn [bind nmul Num_R]. intros Q1 Q2. apply Ok_inj in Q1, Q2. rewrite <- Q1, <- Q2.
  destruct (cen_table_facts x0 u v) as [_ Hm]. specialize (Hm Huv). cbv zeta in Hm.
  apply Rmult_le_compat_r; [exact Ht|]. apply Rle_max_compat_r. exact Hm.
Qed.

Lemma cen_tpeak_inverts p lgm t t0 x u : provides TPCENS_FLEX p -> 0 <= t0 -> 0 <= x <= 1 ->
  frac_peaked_vs_lgm p [x] lgm t = Ok [u] ->
  exists tp, tpeak_cen_of_uran p lgm t t0 u = Ok tp /\ Rabs (tp - Rmax x (5/100) * t0) <= t0 / 199.
Proof.
  intros H Ht Hx. destruct (utp_of_uran_eval p lgm t H) as (x0 & E). destruct (E u) as [Eu El].
  rewrite El. cbn [map]. intros [= <-].
  unfold tpeak_cen_of_uran. destruct (E (FP x0 x)) as [-> _]. cbn [bind nmul Num_R]. eexists. split; [reflexivity|].
  destruct (table_inverts (FP x0) 0 1 200 x) as [_ Hi]; [lia|lra|intros; now apply FP_strict|exact Hx|].
  cbv zeta in Hi. replace (INR (200 - 1)) with 199 in Hi by (change (200 - 1)%nat with 199%nat; rewrite INR_IZR_INZ; reflexivity).
  set (r := interp _ _ _) in *. rewrite <- Rmult_minus_distr_r, Rabs_mult, (Rabs_right t0) by lra.
  replace (t0 / 199) with (1 / 199 * t0) by field. apply Rmult_le_compat_r; [exact Ht|].
  apply Rle_trans with (Rabs (r - x)); [|lra].
  unfold Rmax. repeat destruct Rle_dec; unfold Rabs; repeat destruct Rcase_abs; lra.
Qed.

(** ** Peak time drawn from the truncated normal *)

Lemma trunc_params (loc scale x : R) : 0 < scale ->
  tp_cdf_kern truncnorm_cdf_R x (loc, scale) =
  truncnorm_cdf_R x ((1/10 - loc) / scale) ((1 - loc) / scale) loc scale.
Proof. reflexivity. Qed.

Lemma trunc_ab (loc scale : R) : 0 < scale -> (1/10 - loc) / scale < (1 - loc) / scale.
Proof. intros H. apply Rmult_lt_compat_r; [now apply Rinv_0_lt_compat|lra]. Qed.

Lemma trunc_cdf_mono loc scale x y : 0 < scale -> x <= y ->
  tp_cdf_kern truncnorm_cdf_R x (loc, scale) <= tp_cdf_kern truncnorm_cdf_R y (loc, scale).
Proof.
  intros H Hxy. rewrite !trunc_params by exact H. apply truncnorm_mono; [now apply trunc_ab|exact H|exact Hxy].
Qed.

Lemma trunc_cdf_strict loc scale x y : 0 < scale -> 1/10 <= x -> x < y -> y <= 1 ->
  tp_cdf_kern truncnorm_cdf_R x (loc, scale) < tp_cdf_kern truncnorm_cdf_R y (loc, scale).
Proof.
  intros H H1 H2 H3. rewrite !trunc_params by exact H.
  assert (Hi : 0 < / scale) by now apply Rinv_0_lt_compat.
  apply truncnorm_strict; [now apply trunc_ab|exact H| | |exact H2].
  - apply Rmult_le_compat_r; lra.
  - apply Rmult_le_compat_r; lra.
Qed.

Definition XLO (loc scale : R) : R := Rmax (loc - 4 * scale) (1001/10000).
Definition XHI (loc scale : R) : R := Rmin (loc + 4 * scale) (9999/10000).

Lemma utp_sat_eval loc scale u :
  utp_sat_of_uran truncnorm_cdf_R (loc, scale) u =
  interp u (map (fun x => tp_cdf_kern truncnorm_cdf_R x (loc, scale)) (linspace (XLO loc scale) (XHI loc scale) 50))
    (linspace (XLO loc scale) (XHI loc scale) 50).
Proof.
  unfold utp_sat_of_uran. cbv zeta. rewrite nmaximum_R, nminimum_R.
  assert (E1 : Rmax (nsub loc (nmul #4%num scale)) (nadd X_MIN UTP_EPS) = XLO loc scale).
  { unfold XLO, X_MIN, UTP_EPS. cbn [nsub nmul nadd nconst Num_R]. f_equal. lra. }
  assert (E2 : Rmin (nadd loc (nmul #4%num scale)) (nsub X_MAX UTP_EPS) = XHI loc scale).
  { unfold XHI, X_MAX, UTP_EPS. cbn [nsub nmul nadd nconst Num_R]. f_equal. lra. }
  rewrite E1, E2. reflexivity.
Qed.

Lemma utp_sat_facts loc scale u v : 0 < scale -> XLO loc scale <= XHI loc scale ->
  let I := utp_sat_of_uran truncnorm_cdf_R (loc, scale) in
  XLO loc scale <= I u <= XHI loc scale /\ (u <= v -> I u <= I v).
Proof.
  intros Hs Hle I. unfold I. rewrite !utp_sat_eval.
  set (a := XLO loc scale) in *. set (b := XHI loc scale) in *.
  assert (S2 := linspace_sorted a b 50 Hle).
  assert (S1 : sorted (map (fun x => tp_cdf_kern truncnorm_cdf_R x (loc, scale)) (linspace a b 50))).
  { apply sorted_map; [|exact S2]. intros x y. now apply trunc_cdf_mono. }
  assert (L50 : List.length (linspace a b 50) = 50%nat) by apply linspace_length.
  assert (HL : List.length (linspace a b 50) = List.length (map (fun x => tp_cdf_kern truncnorm_cdf_R x (loc, scale)) (linspace a b 50)))
    by now rewrite map_length.
  assert (Hn : (2 <= List.length (map (fun x => tp_cdf_kern truncnorm_cdf_R x (loc, scale)) (linspace a b 50)))%nat)
    by (rewrite map_length, L50; lia).
  split.
  - pose proof (interp_range u _ _ S1 S2 HL Hn) as Hr. rewrite L50 in Hr.
    rewrite linspace_first, linspace_last in Hr by lia. exact Hr.
  - intros Huv. now apply interp_mono.
Qed.

Lemma utp_sat_inverts loc scale x : 0 < scale -> XLO loc scale <= x <= XHI loc scale ->
  Rabs (utp_sat_of_uran truncnorm_cdf_R (loc, scale) (tp_cdf_kern truncnorm_cdf_R x (loc, scale)) - x) <= 19/1000.
Proof.
  intros Hs Hx. rewrite utp_sat_eval.
  assert (Ha : 1001/10000 <= XLO loc scale) by apply Rmax_r.
  assert (Hb : XHI loc scale <= 9999/10000) by apply Rmin_r.
  destruct (table_inverts (fun x => tp_cdf_kern truncnorm_cdf_R x (loc, scale)) (XLO loc scale) (XHI loc scale) 50 x)
    as [_ Hi]; [lia|lra| |exact Hx|].
  { intros y z H1 H2 H3. apply trunc_cdf_strict; lra. }
  cbv zeta beta in Hi. eapply Rle_trans; [exact Hi|].
  replace (INR (50 - 1)) with 49 by (change (50 - 1)%nat with 49%nat; rewrite INR_IZR_INZ; reflexivity). lra.
Qed.

(** Location and scale for satellites *)
Lemma sat_loc_scale p lgm t : provides TP_SATS p -> exists loc scale,
  get_utp_loc p lgm t = Ok loc /\ get_utp_scale p lgm t = Ok scale /\
  15/100 < loc < 95/100 /\ 1/10 < scale < 6/10.
Proof.
  intros H. unfold get_utp_loc, get_utp_scale, get_utp_loc_lgm_ylo, get_utp_scale_lgm_ylo.
  fld H "utp_loc_lgm_ylo_t0" a Ea Ba. fld H "utp_loc_lgm_ylo_early" b Eb Bb. fld H "utp_loc_lgm_ylo_late" c Ec Bc.
  fld H "utp_loc_lgm_x0" d Ed Bd.
  fld H "utp_scale_lgm_ylo_t0" e Ee Be. fld H "utp_scale_lgm_ylo_early" g Eg Bg. fld H "utp_scale_lgm_ylo_late" h Eh Bh.
  do 2 eexists. refine (conj eq_refl (conj eq_refl (conj _ _))).
  - assert (S1 : 15/100 < sigmoid t a (UTP_LOC_TOBS_K : R) b c < 8/10) by (apply sigmoid_range; lra).
    pose proof (sigmoid_between lgm d UTP_LOC_LGM_K (sigmoid t a UTP_LOC_TOBS_K b c) UTP_LOC_LGM_YHI) as S2.
    change (UTP_LOC_LGM_YHI : R) with (95/100) in *. specialize (S2 ltac:(lra)). lra.
  - assert (S1 : 1/10 < sigmoid t e (UTP_SCALE_TOBS_K : R) g h < 6/10) by (apply sigmoid_range; lra).
    apply sigmoid_range; [exact S1|]. unfold UTP_SCALE_LGM_YHI. cbn. lra.
Qed.

Lemma sat_window loc scale : 15/100 < loc <= 95/100 -> 1/10 < scale -> XLO loc scale <= loc <= XHI loc scale /\
  1001/10000 <= XLO loc scale /\ XHI loc scale <= 9999/10000.
Proof.
  intros H1 H2. unfold XLO, XHI. refine (conj (conj _ _) (conj _ _)).
  - apply Rmax_lub; lra.
  - apply Rmin_glb; lra.
  - apply Rmax_r.
  - apply Rmin_r.
Qed.

Lemma sat_tpeak_eval p lgm t : provides TP_SATS p -> exists loc scale,
  get_utp_loc p lgm t = Ok loc /\ get_utp_scale p lgm t = Ok scale /\
  15/100 < loc < 95/100 /\ 1/10 < scale < 6/10 /\
  forall u, tpeak_sat_of_uran truncnorm_cdf_R p lgm t u = Ok (utp_sat_of_uran truncnorm_cdf_R (loc, scale) u * t).
Proof.
  intros H. destruct (sat_loc_scale p lgm t H) as (loc & scale & E1 & E2 & B1 & B2).
  exists loc, scale. refine (conj E1 (conj E2 (conj B1 (conj B2 _)))). intros u.
  unfold tpeak_sat_of_uran. rewrite E1, E2. reflexivity.
Qed.

Lemma sat_tpeak_range p lgm t u : provides TP_SATS p -> 0 <= t ->
  exists tp, tpeak_sat_of_uran truncnorm_cdf_R p lgm t u = Ok tp /\ 1001/10000 * t <= tp <= 9999/10000 * t.
Proof.
  intros H Ht. destruct (sat_tpeak_eval p lgm t H) as (loc & scale & _ & _ & B1 & B2 & E).
  rewrite E. eexists. split; [reflexivity|].
  destruct (sat_window loc scale ltac:(lra) ltac:(lra)) as (W1 & W2 & W3).
  destruct (utp_sat_facts loc scale u u ltac:(lra) ltac:(lra)) as [F _]. cbv zeta in F. split; apply Rmult_le_compat_r; lra.
Qed.

Lemma sat_tpeak_mono p lgm t u v tp tp' : provides TP_SATS p -> 0 <= t -> u <= v ->
  tpeak_sat_of_uran truncnorm_cdf_R p lgm t u = Ok tp -> tpeak_sat_of_uran truncnorm_cdf_R p lgm t v = Ok tp' -> tp <= tp'.
Proof.
  intros H Ht Huv. destruct (sat_tpeak_eval p lgm t H) as (loc & scale & _ & _ & B1 & B2 & E).
  rewrite !E. intros Q1 Q2. apply Ok_inj in Q1, Q2. rewrite <- Q1, <- Q2.
  destruct (sat_window loc scale ltac:(lra) ltac:(lra)) as (W1 & W2 & W3).
  destruct (utp_sat_facts loc scale u v ltac:(lra) ltac:(lra)) as [_ F]. apply Rmult_le_compat_r; [exact Ht|].
  now apply F.
Qed.

(** ** Truncated-normal centrals *)

Lemma cen_scale p lgm t t0 : provides TPCENS p -> exists s b,
  get_truncnorm_scale p lgm = Ok s /\ get_truncnorm_scale_boost p t t0 = Ok b /\ 1/10 < s < 9/10 /\ 0 < b < 9/10.
Proof.
  intros H. unfold get_truncnorm_scale, get_truncnorm_scale_boost.
  fld H "tpck_scale_mh_lo" a Ea Ba. fld H "tpck_scale_mh_hi" c Ec Bc. fld H "tpck_scale_boost_early" d Ed Bd.
  do 2 eexists. refine (conj eq_refl (conj eq_refl (conj _ _))).
  - apply sigmoid_range; lra.
  - cbn [nconst ndiv Num_R]. pose proof (sigmoid_between_desc t (t0 / 2) LOC_T_OBS_K d 0 ltac:(lra)). lra.
Qed.

Lemma cen_trunc_eval p lgm t t0 : provides TPCENS p -> exists scale, 1/10 < scale < 18/10 /\
  get_singlepdf_params p lgm t t0 = Ok (95/100, scale) /\
  (forall u, tpeak_cen_trunc_of_uran truncnorm_cdf_R p lgm t t0 u =
    Ok (utp_sat_of_uran truncnorm_cdf_R (95/100, scale) u * t0)) /\
  (forall tp, t_peak_cen_cdf_singlehalo_kern truncnorm_cdf_R p lgm t tp t0 =
    Ok (tp_cdf_kern truncnorm_cdf_R (tp / t0) (95/100, scale) / t0)) /\
  (forall tp, t_peak_cen_pdf_singlehalo_kern truncnorm_pdf_R p lgm t tp t0 =
    Ok (tp_pdf_kern truncnorm_pdf_R (tp / t0) (95/100, scale) / t0)).
Proof.
  intros H. destruct (cen_scale p lgm t t0 H) as (s & b & E1 & E2 & B1 & B2).
  exists (s + b). split; [lra|].
  assert (E : get_singlepdf_params p lgm t t0 = Ok (95/100, s + b)).
  { unfold get_singlepdf_params. rewrite E1, E2. cbn [bind]. unfold DEFAULT_TRUNCNORM_LOC.
    cbn [nmul nadd nconst Num_R]. do 2 f_equal. ring. }
  split; [exact E|]. split; [|split].
  - intros u. unfold tpeak_cen_trunc_of_uran. rewrite E. reflexivity.
  - intros tp. unfold t_peak_cen_cdf_singlehalo_kern. rewrite E1, E2. reflexivity.
  - intros tp. unfold t_peak_cen_pdf_singlehalo_kern. rewrite E1, E2. reflexivity.
Qed.

Lemma cen_trunc_range p lgm t t0 u : provides TPCENS p -> 0 <= t0 ->
  exists tp, tpeak_cen_trunc_of_uran truncnorm_cdf_R p lgm t t0 u = Ok tp /\ 1001/10000 * t0 <= tp <= 9999/10000 * t0.
Proof.
  intros H Ht. destruct (cen_trunc_eval p lgm t t0 H) as (scale & B & _ & E & _). rewrite E. eexists. split; [reflexivity|].
  destruct (sat_window (95/100) scale ltac:(lra) ltac:(lra)) as (W1 & W2 & W3).
  destruct (utp_sat_facts (95/100) scale u u ltac:(lra) ltac:(lra)) as [F _]. cbv zeta in F. split; apply Rmult_le_compat_r; lra.
Qed.

(** The cumulative kernel at and beyond t_0 *)
Lemma cen_cdf_end p lgm t t0 tp : provides TPCENS p -> 0 < t0 -> t0 <= tp ->
  t_peak_cen_cdf_singlehalo_kern truncnorm_cdf_R p lgm t tp t0 = Ok (1 / t0).
Proof.
  intros H Ht Htp. destruct (cen_trunc_eval p lgm t t0 H) as (scale & B & _ & _ & E & _). rewrite E. do 2 f_equal.
  rewrite trunc_params by lra. unfold truncnorm_cdf_R. cbv zeta.
  assert (Hi : 0 < / scale) by (apply Rinv_0_lt_compat; lra).
  assert (1 <= tp / t0).
  { apply Rmult_le_reg_r with t0; [exact Ht|]. unfold Rdiv. rewrite Rmult_assoc, Rinv_l by lra. lra. }
  assert ((1 - 95/100) / scale <= (tp / t0 - 95/100) / scale) by (apply Rmult_le_compat_r; lra).
  pose proof (trunc_ab (95/100) scale ltac:(lra)).
  destruct Rle_dec; [lra|]. destruct Rle_dec; [reflexivity|lra].
Qed.

Lemma cen_cdf_start p lgm t t0 tp : provides TPCENS p -> 0 < t0 -> tp <= t0 / 10 ->
  t_peak_cen_cdf_singlehalo_kern truncnorm_cdf_R p lgm t tp t0 = Ok 0.
Proof.
  intros H Ht Htp. destruct (cen_trunc_eval p lgm t t0 H) as (scale & B & _ & _ & E & _). rewrite E.
  rewrite trunc_params by lra. unfold truncnorm_cdf_R. cbv zeta.
  assert (Hi : 0 < / scale) by (apply Rinv_0_lt_compat; lra).
  assert (tp / t0 <= 1/10).
  { apply Rmult_le_reg_r with t0; [exact Ht|]. unfold Rdiv. rewrite Rmult_assoc, Rinv_l by lra. lra. }
  assert ((tp / t0 - 95/100) / scale <= (1/10 - 95/100) / scale) by (apply Rmult_le_compat_r; lra).
  destruct Rle_dec; [|lra]. f_equal. lra.
Qed.

Lemma cen_cdf_mono p lgm t t0 tp tp' v v' : provides TPCENS p -> 0 < t0 -> tp <= tp' ->
  t_peak_cen_cdf_singlehalo_kern truncnorm_cdf_R p lgm t tp t0 = Ok v ->
  t_peak_cen_cdf_singlehalo_kern truncnorm_cdf_R p lgm t tp' t0 = Ok v' -> v <= v'.
Proof.
  intros H Ht Htp. destruct (cen_trunc_eval p lgm t t0 H) as (scale & B & _ & _ & E & _). rewrite !E.
  intros Q1 Q2. apply Ok_inj in Q1, Q2. rewrite <- Q1, <- Q2. assert (Hi : 0 < / t0) by now apply Rinv_0_lt_compat.
  apply Rmult_le_compat_r; [lra|]. apply trunc_cdf_mono; [lra|]. apply Rmult_le_compat_r; lra.
Qed.

(** The density kernel is a density: it integrates to one, and its integral is
    t_0 times the cumulative kernel. *)
Lemma trunc_pdf_int loc scale x : 0 < scale -> 1/10 <= x <= 1 ->
  is_RInt (fun y => tp_pdf_kern truncnorm_pdf_R y (loc, scale)) (1/10) x
    (tp_cdf_kern truncnorm_cdf_R x (loc, scale)).
Proof.
  intros Hs Hx.
  set (a := (1/10 - loc) / scale). set (b := (1 - loc) / scale).
  assert (Hab : a < b) by now apply trunc_ab.
  pose proof (gauss_RInt_pos a b Hab) as Hp.
  assert (Hi : 0 < / scale) by now apply Rinv_0_lt_compat.
  set (z := (x - loc) / scale).
  assert (Hz : a <= z <= b) by (split; apply Rmult_le_compat_r; lra).
  assert (Ecdf : tp_cdf_kern truncnorm_cdf_R x (loc, scale) = RInt gauss a z / RInt gauss a b).
  { rewrite trunc_params by exact Hs. fold a b. unfold truncnorm_cdf_R. cbv zeta. fold z.
    destruct Rle_dec.
    - replace z with a by lra. rewrite RInt_point. unfold zero; cbn. unfold Rdiv. ring.
    - destruct Rle_dec; [|reflexivity]. replace z with b by lra. field. lra. }
  rewrite Ecdf.
  apply (is_RInt_ext (fun y => scal (/ RInt gauss a b) (scal (/ scale) (gauss (/ scale * y + (- loc / scale)))))).
  { intros y. rewrite Rmin_left, Rmax_right by lra. intros Hy.
    change (tp_pdf_kern truncnorm_pdf_R y (loc, scale)) with (truncnorm_pdf_R y a b loc scale).
    unfold truncnorm_pdf_R. cbv zeta.
    assert (a <= (y - loc) / scale <= b) by (split; apply Rmult_le_compat_r; lra).
    destruct Rlt_dec; [lra|]. destruct Rlt_dec; [lra|].
    replace (/ scale * y + - loc / scale) with ((y - loc) / scale) by (field; lra).
    change (/ RInt gauss a b * (/ scale * gauss ((y - loc) / scale)) = gauss ((y - loc) / scale) / RInt gauss a b / scale).
    field. split; lra. }
  replace (RInt gauss a z / RInt gauss a b) with (scal (/ RInt gauss a b) (RInt gauss a z)).
  2:{ change (/ RInt gauss a b * RInt gauss a z = RInt gauss a z / RInt gauss a b). unfold Rdiv. ring. }
  apply (is_RInt_scal (V:=R_NormedModule)).
  apply (is_RInt_comp_lin (V:=R_NormedModule)).
  replace (/ scale * (1/10) + - loc / scale) with a by (unfold a; field; lra).
  replace (/ scale * x + - loc / scale) with z by (unfold z; field; lra).
  apply (RInt_correct (V:=R_CompleteNormedModule)). apply gauss_int.
Qed.

Lemma cen_pdf_integral p lgm t t0 tp : provides TPCENS p -> 0 < t0 -> t0 / 10 <= tp <= t0 ->
  exists cdf (pdf : R -> R), t_peak_cen_cdf_singlehalo_kern truncnorm_cdf_R p lgm t tp t0 = Ok cdf /\
    (forall s, t_peak_cen_pdf_singlehalo_kern truncnorm_pdf_R p lgm t s t0 = Ok (pdf s)) /\
    is_RInt pdf (t0 / 10) tp (t0 * cdf).
Proof.
  intros H Ht Htp. destruct (cen_trunc_eval p lgm t t0 H) as (scale & B & _ & _ & Ec & Ep).
  exists (tp_cdf_kern truncnorm_cdf_R (tp / t0) (95/100, scale) / t0),
    (fun s => tp_pdf_kern truncnorm_pdf_R (s / t0) (95/100, scale) / t0).
  refine (conj (Ec tp) (conj Ep _)).
  replace (t0 * (tp_cdf_kern truncnorm_cdf_R (tp / t0) (95/100, scale) / t0))
    with (tp_cdf_kern truncnorm_cdf_R (tp / t0) (95/100, scale)) by (field; lra).
  apply (is_RInt_ext (fun y => scal (/ t0) (tp_pdf_kern truncnorm_pdf_R (/ t0 * y + 0) (95/100, scale)))).
  { intros y _. unfold scal; cbn -[tp_pdf_kern]. unfold mult; cbn -[tp_pdf_kern].
    replace (/ t0 * y + 0) with (y / t0) by (field; lra). unfold Rdiv. ring. }
  apply (is_RInt_comp_lin (V:=R_NormedModule) (fun y => tp_pdf_kern truncnorm_pdf_R y (95/100, scale))).
  replace (/ t0 * (t0 / 10) + 0) with (1/10) by (field; lra).
  replace (/ t0 * tp + 0) with (tp / t0) by (field; lra).
  apply trunc_pdf_int; [lra|].
  assert (Hi : 0 < / t0) by now apply Rinv_0_lt_compat.
  replace (tp / t0) with (tp * / t0) by reflexivity.
  split; apply Rmult_le_reg_r with t0; try exact Ht; rewrite (Rmult_assoc tp), Rinv_l by lra; lra.
Qed.
