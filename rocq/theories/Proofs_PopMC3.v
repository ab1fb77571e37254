(** Lemmas on the halos the Monte Carlo generators return: exact scatter on the
    reals, and what happens in floating point outside the parameter bounds. *)

From Coq Require Import Reals String List Bool Arith Lia Lra.
From Verif Require Import Model_Num RealAux Model_Base Model_Kernels Model_Utils Model_PopBase Model_PopData
  Model_PopParams Model_PopKernels Model_PopMC Proofs_Kernels Proofs_XKernels Spec_Kernels Spec_Utils Spec_Pop Spec_PopMC Spec_TruncNorm
  Proofs_PopBase Proofs_PopInterp Proofs_PopTpeak Proofs_PopKernels Proofs_PopProps Proofs_PopMC Proofs_PopMC2.
Import ListNotations.
Local Open Scope string_scope.
Local Open Scope R_scope.

(** ** Reals *)

Lemma scattered_R (m : DiffmahParams R) d h : scattered m d h ->
  exists d1 d2 d3 d4 rest, d = d1 :: d2 :: d3 :: d4 :: rest /\ legal h /\
    u_logm0 (get_unbounded_mah_params h) = u_logm0 (get_unbounded_mah_params m) + d1 /\
    u_logtc (get_unbounded_mah_params h) = u_logtc (get_unbounded_mah_params m) + d2 /\
    u_early_index (get_unbounded_mah_params h) = u_early_index (get_unbounded_mah_params m) + d3 /\
    u_late_index (get_unbounded_mah_params h) = u_late_index (get_unbounded_mah_params m) + d4 /\
    u_t_peak (get_unbounded_mah_params h) = u_t_peak (get_unbounded_mah_params m).
Proof.
  intros (d1 & d2 & d3 & d4 & rest & -> & ->). exists d1, d2, d3, d4, rest.
  rewrite unbounded_bounded. cbn [u_logm0 u_logtc u_early_index u_late_index u_t_peak].
  refine (conj eq_refl (conj (bounded_legal _) _)). repeat split.
Qed.

Lemma bounded_t_peak (u : DiffmahUParams R) : t_peak (get_bounded_mah_params u) = get_bounded_diffmah_param (u_t_peak u) (5/100, 20).
Proof. unfold get_bounded_mah_params. now destruct (get_early_late _ _). Qed.

Lemma unbounded_t_peak (m : DiffmahParams R) : u_t_peak (get_unbounded_mah_params m) = get_unbounded_diffmah_param (t_peak m) (5/100, 20).
Proof. unfold get_unbounded_mah_params. now destruct (get_u_early_late _ _). Qed.

Lemma scattered_tp_R (m : DiffmahParams R) d h : scattered m d h -> 5/100 < t_peak m < 20 -> t_peak h = t_peak m.
Proof.
  intros (d1 & d2 & d3 & d4 & rest & -> & ->) B. rewrite bounded_t_peak. cbn [u_t_peak]. rewrite unbounded_t_peak.
  now apply bounded_unbounded_param.
Qed.

Lemma scattered_zero (m : DiffmahParams R) d h : scattered m d h -> legal m -> (forall x, In x d -> x = 0) -> h = m.
Proof.
  intros (d1 & d2 & d3 & d4 & rest & -> & ->) L Z.
  rewrite <- (bounded_unbounded m L) at 6. f_equal.
  rewrite (Z d1), (Z d2), (Z d3), (Z d4) by (cbn; auto).
  cbn [nadd Num_R]. rewrite !Rplus_0_r. now destruct (get_unbounded_mah_params m).
Qed.

(** Where the drawn peak time lies. *)
Lemma peak_time_range g (p : rec R) lgm t lgt0 u : legal_pop p -> (g = Sat -> 0 <= t) ->
  exists tp, peak_time truncnorm_cdf_R g p lgm t lgt0 u = Ok tp /\
    match g with
    | Cen => 5/100 * pow10 lgt0 <= tp <= pow10 lgt0
    | Sat => 1001/10000 * t <= tp <= 9999/10000 * t
    end.
Proof.
  intros L Ht. destruct g; cbn [peak_time].
  - apply cen_tpeak_range; [apply pop_components_provided; [in_list|exact L]|]. left. apply pow10_pos.
  - apply sat_tpeak_range; [apply pop_components_provided; [in_list|exact L]|]. now apply Ht.
Qed.

Lemma single_tp_R (G : rng R) g (p : rec R) lgm t k lgt0 otp e l f tr :
  mc_diffmah_params_single TN G g p lgm t k lgt0 otp = (Ok (e, l, f), tr) ->
  legal e /\ legal l /\
  exists tp, match otp with
             | Some x => tp = x
             | None => peak_time TN g p lgm t lgt0 (uniform G (Split k 2 0)) = Ok tp
             end /\
    (5/100 < tp < 20 -> t_peak e = tp /\ t_peak l = tp).
Proof.
  intros H. apply single_inv in H. destruct H as (tp & me & ml & cov & Htp & Me & Ml & _ & _ & Se & Sl & _).
  pose proof (scattered_R _ _ _ Se) as (_ & _ & _ & _ & _ & _ & Le & _).
  pose proof (scattered_R _ _ _ Sl) as (_ & _ & _ & _ & _ & _ & Ll & _).
  refine (conj Le (conj Ll _)). exists tp. refine (conj Htp _). intros B.
  destruct Me as (_ & _ & _ & _ & Ee). destruct Ml as (_ & _ & _ & _ & El).
  split; [rewrite <- Ee|rewrite <- El]; eapply scattered_tp_R; [exact Se| |exact Sl|]; congruence.
Qed.

(** ** The fields of the four mass populations *)

Lemma m0_fields (p : rec R) s : legal_pop p -> In s four_populations ->
  exists y0 l0 a0 b0 x0 y1 l1 c1 a1 b1 x1,
    getattr p ("lgm0pop_c0_ytp" ++ s) = Ok y0 /\ getattr p ("lgm0pop_c0_ylo" ++ s) = Ok l0 /\
    getattr p ("lgm0pop_c0_clip_c0" ++ s) = Ok a0 /\ getattr p ("lgm0pop_c0_clip_c1" ++ s) = Ok b0 /\
    getattr p ("lgm0pop_c0_t_obs_x0" ++ s) = Ok x0 /\
    getattr p ("lgm0pop_c1_ytp" ++ s) = Ok y1 /\ getattr p ("lgm0pop_c1_ylo" ++ s) = Ok l1 /\
    getattr p ("lgm0pop_c1_clip_x0" ++ s) = Ok c1 /\ getattr p ("lgm0pop_c1_clip_ylo" ++ s) = Ok a1 /\
    getattr p ("lgm0pop_c1_clip_yhi" ++ s) = Ok b1 /\ getattr p ("lgm0pop_c1_t_obs_x0" ++ s) = Ok x1 /\
    1/100 < y0 < 4/10 /\ -15/100 < l0 < -5/100 /\ a0 < 9/10 /\ -1/10 < b0 < -1/100 /\
    1/1000 < y1 < 1/10 /\ -5/100 < l1 < -1/1000 /\ 2/100 < a1 < 15/100 /\ 1/1000 < b1 < 5/100.
Proof.
  intros L Hs. destruct (four_pop p s L Hs) as (c0 & c1 & Hin & H0 & H1).
  destruct Hin as [E|[E|[E|[E|[]]]]]; injection E as <- <- <-; cbn [append].
  - fld H0 "lgm0pop_c0_ytp_early" y0 E1 B1. fld H0 "lgm0pop_c0_ylo_early" l0 E2 B2. fld H0 "lgm0pop_c0_clip_c0_early" a0 E3 B3.
    fld H0 "lgm0pop_c0_clip_c1_early" b0 E4 B4. fld H0 "lgm0pop_c0_t_obs_x0_early" x0 E5 B5.
    fld H1 "lgm0pop_c1_ytp_early" y1 E6 B6. fld H1 "lgm0pop_c1_ylo_early" l1 E7 B7. fld H1 "lgm0pop_c1_clip_x0_early" c1 E8 B8.
    fld H1 "lgm0pop_c1_clip_ylo_early" a1 E9 B9. fld H1 "lgm0pop_c1_clip_yhi_early" b1 E10 B10. fld H1 "lgm0pop_c1_t_obs_x0_early" x1 E11 B11.
    exists y0, l0, a0, b0, x0, y1, l1, c1, a1, b1, x1. repeat (split; [first [reflexivity|lra]|]). lra.
  - fld H0 "lgm0pop_c0_ytp_late" y0 E1 B1. fld H0 "lgm0pop_c0_ylo_late" l0 E2 B2. fld H0 "lgm0pop_c0_clip_c0_late" a0 E3 B3.
    fld H0 "lgm0pop_c0_clip_c1_late" b0 E4 B4. fld H0 "lgm0pop_c0_t_obs_x0_late" x0 E5 B5.
    fld H1 "lgm0pop_c1_ytp_late" y1 E6 B6. fld H1 "lgm0pop_c1_ylo_late" l1 E7 B7. fld H1 "lgm0pop_c1_clip_x0_late" c1 E8 B8.
    fld H1 "lgm0pop_c1_clip_ylo_late" a1 E9 B9. fld H1 "lgm0pop_c1_clip_yhi_late" b1 E10 B10. fld H1 "lgm0pop_c1_t_obs_x0_late" x1 E11 B11.
    exists y0, l0, a0, b0, x0, y1, l1, c1, a1, b1, x1. repeat (split; [first [reflexivity|lra]|]). lra.
  - fld H0 "lgm0pop_c0_ytp_early_sats" y0 E1 B1. fld H0 "lgm0pop_c0_ylo_early_sats" l0 E2 B2. fld H0 "lgm0pop_c0_clip_c0_early_sats" a0 E3 B3.
    fld H0 "lgm0pop_c0_clip_c1_early_sats" b0 E4 B4. fld H0 "lgm0pop_c0_t_obs_x0_early_sats" x0 E5 B5.
    fld H1 "lgm0pop_c1_ytp_early_sats" y1 E6 B6. fld H1 "lgm0pop_c1_ylo_early_sats" l1 E7 B7. fld H1 "lgm0pop_c1_clip_x0_early_sats" c1 E8 B8.
    fld H1 "lgm0pop_c1_clip_ylo_early_sats" a1 E9 B9. fld H1 "lgm0pop_c1_clip_yhi_early_sats" b1 E10 B10. fld H1 "lgm0pop_c1_t_obs_x0_early_sats" x1 E11 B11.
    exists y0, l0, a0, b0, x0, y1, l1, c1, a1, b1, x1. repeat (split; [first [reflexivity|lra]|]). lra.
  - fld H0 "lgm0pop_c0_ytp_late_sats" y0 E1 B1. fld H0 "lgm0pop_c0_ylo_late_sats" l0 E2 B2. fld H0 "lgm0pop_c0_clip_c0_late_sats" a0 E3 B3.
    fld H0 "lgm0pop_c0_clip_c1_late_sats" b0 E4 B4. fld H0 "lgm0pop_c0_t_obs_x0_late_sats" x0 E5 B5.
    fld H1 "lgm0pop_c1_ytp_late_sats" y1 E6 B6. fld H1 "lgm0pop_c1_ylo_late_sats" l1 E7 B7. fld H1 "lgm0pop_c1_clip_x0_late_sats" c1 E8 B8.
    fld H1 "lgm0pop_c1_clip_ylo_late_sats" a1 E9 B9. fld H1 "lgm0pop_c1_clip_yhi_late_sats" b1 E10 B10. fld H1 "lgm0pop_c1_t_obs_x0_late_sats" x1 E11 B11.
    exists y0, l0, a0, b0, x0, y1, l1, c1, a1, b1, x1. repeat (split; [first [reflexivity|lra]|]). lra.
Qed.

(** The mean z=0 mass is inside its bounds for ordinary halos, whatever the
    legal parameters. *)
Lemma logm0_bounds (p : rec R) s lgm t tp v : legal_pop p -> In s four_populations -> 0 <= t <= 15 -> 0 < tp -> 10 <= lgm <= 134/10 ->
  pred_logm0_kern s p lgm t tp = Ok v -> 0 < v < 17.
Proof.
  intros L Hs Ht Htp Hl. destruct (m0_fields p s L Hs) as (y0 & l0 & a0 & b0 & x0 & y1 & l1 & c1 & a1 & b1 & x1 & E1 & E2 & E3 & E4 & E5 & E6 & E7 & E8 & E9 & E10 & E11
    & B1 & B2 & B3 & B4 & B5 & B6 & B7 & B8).
  unfold pred_logm0_kern, pred_c0_kern, pred_c1_kern. rewrite E1, E2, E3, E4, E5. cbn [bind]. rewrite E6, E7, E8, E9, E10, E11. cbn [bind].
  intros H. apply Ok_inj in H. subst v. rewrite !clip_min_R.
  unfold sig_slope, LGM0_C0_XTP, LGM0_C1_XTP, TP_LGMP. cbn [nadd nmul nsub nconst Num_R].
  pose proof (sigmoid_range t x0 LGM0_GLOBAL_K l0 0 (-15/100) (1/100) ltac:(lra) ltac:(lra)) as S0.
  pose proof (sigmoid_range t x1 LGM0_GLOBAL_K l1 0 (-5/100) (1/100) ltac:(lra) ltac:(lra)) as S1.
  pose proof (sigmoid_range_le t x0 LGM0_GLOBAL_K l0 0 (-15/100) 0 ltac:(lra) ltac:(lra)) as S0'.
  pose proof (sigmoid_range_le t x1 LGM0_GLOBAL_K l1 0 (-5/100) 0 ltac:(lra) ltac:(lra)) as S1'.
  pose proof (sigmoid_range tp c1 LGM0_CLIP_TP_K a1 b1 (1/1000) (15/100) ltac:(lra) ltac:(lra)) as S2.
  set (s0 := sigmoid t x0 LGM0_GLOBAL_K l0 0) in *. set (s1 := sigmoid t x1 LGM0_GLOBAL_K l1 0) in *.
  set (q := sigmoid tp c1 LGM0_CLIP_TP_K a1 b1) in *.
  assert (C0 : 1/100 < Rmax (y0 + s0 * (t - 15)) (a0 + b0 * tp) < 265/100).
  { split; [eapply Rlt_le_trans; [|apply Rmax_l]; nra|]. apply Rmax_lub_lt; nra. }
  assert (C1 : 1/1000 < Rmax (y1 + s1 * (t - 10)) q < 6/10).
  { split; [eapply Rlt_le_trans; [|apply Rmax_r]; lra|]. apply Rmax_lub_lt; nra. }
  set (c0 := Rmax (y0 + s0 * (t - 15)) (a0 + b0 * tp)) in *. set (c1' := Rmax (y1 + s1 * (t - 10)) q) in *. nra.
Qed.

(** ** Floats: transfer *)

Lemma getattr_x (p : rec R) k : getattr (xrec p) k = match getattr p k with Ok v => Ok (Fin v) | Err e => Err e end.
Proof.
  unfold xrec. induction p as [|[k' v] p IH]; cbn; [reflexivity|]. destruct (String.eqb k' k); [reflexivity|exact IH].
Qed.

Lemma x_max (a b : R) : nmaximum (Fin a) (Fin b) = Fin (nmaximum a b).
Proof. unfold nmaximum. cbn. unfold Rleb. destruct (Rle_dec b a); [reflexivity|]. now destruct (Rle_dec a b). Qed.
Lemma x_min (a b : R) : nminimum (Fin a) (Fin b) = Fin (nminimum a b).
Proof. unfold nminimum. cbn. unfold Rleb. destruct (Rle_dec a b); [reflexivity|]. now destruct (Rle_dec b a). Qed.
Lemma x_clip (a b c : R) : clip (Fin a) (Fin b) (Fin c) = Fin (clip a b c).
Proof. unfold clip. now rewrite x_max, x_min. Qed.
Lemma x_sigmoid (x x0 k lo hi : R) : sigmoid (Fin x) (Fin x0) (Fin k) (Fin lo) (Fin hi) = Fin (sigmoid x x0 k lo hi).
Proof. reflexivity. Qed.
Lemma x_sig_slope (x a b c d lo hi : R) : sig_slope (Fin x) (Fin a) (Fin b) (Fin c) (Fin d) (Fin lo) (Fin hi) = Fin (sig_slope x a b c d lo hi).
Proof. reflexivity. Qed.

Definition rfin (r : res R) : res xr := match r with Ok v => Ok (Fin v) | Err e => Err e end.

Ltac xfields p := rewrite ?getattr_x;
  repeat match goal with
  | |- context [getattr p ?k] => destruct (getattr p k); cbn [bind rfin]; [|reflexivity]
  end.

Lemma x_logm0 s (p : rec R) lgm t tp : pred_logm0_kern s (xrec p) (Fin lgm) (Fin t) (Fin tp) = rfin (pred_logm0_kern s p lgm t tp).
Proof.
  unfold pred_logm0_kern, pred_c0_kern, pred_c1_kern. xfields p.
  unfold clip_min, LGM0_C0_XTP, LGM0_C1_XTP, LGM0_GLOBAL_K, LGM0_CLIP_TP_K, TP_LGMP. cbn [nconst Num_xr Num_R].
  rewrite !x_sig_slope, x_sigmoid. cbn [nadd nmul nsub Num_xr xadd xmul]. rewrite !x_max. reflexivity.
Qed.

Lemma x_logtc s (p : rec R) lgm t tp : pred_logtc_kern s (xrec p) (Fin lgm) (Fin t) (Fin tp) = rfin (pred_logtc_kern s p lgm t tp).
Proof.
  unfold pred_logtc_kern, get_c0. xfields p.
  unfold C0_SS_XTP, C0_SS_K, TAUC_LGMP, EPS_INDEX. cbn [nconst Num_xr Num_R nadd nmul nsub xadd xmul xsub xneg]. rewrite x_sig_slope.
  cbn [logtc MAH_PBOUNDS nconst Num_xr Num_R nadd nmul nsub xadd xmul xsub xneg]. rewrite x_clip. reflexivity.
Qed.

Lemma x_early s (p : rec R) lgm t tp : pred_early_index_kern s (xrec p) (Fin lgm) (Fin t) (Fin tp) = rfin (pred_early_index_kern s p lgm t tp).
Proof.
  unfold pred_early_index_kern. xfields p.
  unfold get_early_index_ylo, get_early_index_yhi, EARLY_INDEX_K, EARLY_INDEX_YLO_K, EARLY_INDEX_YHI_K, EPS_INDEX.
  cbn [early_index MAH_PBOUNDS nconst Num_xr Num_R nadd nsub xadd xsub xneg]. rewrite !x_sigmoid, x_clip. reflexivity.
Qed.

Lemma x_late s (p : rec R) lgm : pred_late_index_kern s (xrec p) (Fin lgm) = rfin (pred_late_index_kern s p lgm).
Proof.
  unfold pred_late_index_kern. xfields p.
  unfold LATE_INDEX_K, EPS_INDEX. cbn [late_index MAH_PBOUNDS nconst Num_xr Num_R nadd nsub xadd xsub xneg]. rewrite x_sigmoid, x_clip. reflexivity.
Qed.

Lemma rfin_ok r v : rfin r = Ok v -> exists x, r = Ok x /\ v = Fin x.
Proof. destruct r as [x|e]; cbn; [|discriminate]. intros H. apply Ok_inj in H. eauto. Qed.

Lemma x_is_mean m0 tc ix (p : rec R) lgm t tp (m : DiffmahParams xr) :
  is_mean m0 tc ix (xrec p) (Fin lgm) (Fin t) (Fin tp) m -> exists q, m = inject q /\ is_mean m0 tc ix p lgm t tp q.
Proof.
  intros (H1 & H2 & H3 & H4 & H5). rewrite x_logm0 in H1. rewrite x_logtc in H2. rewrite x_early in H3. rewrite x_late in H4.
  apply rfin_ok in H1 as (a & H1 & E1). apply rfin_ok in H2 as (b & H2 & E2). apply rfin_ok in H3 as (c & H3 & E3). apply rfin_ok in H4 as (d & H4 & E4).
  exists (mkParams a b c d tp). split.
  - destruct m as [m1 m2 m3 m4 m5]. cbn in E1, E2, E3, E4, H5. subst. reflexivity.
  - repeat (split; [assumption|]). reflexivity.
Qed.

(** A legal mean displaced by a finite amount is a legal halo. *)
Lemma x_scattered (q : DiffmahParams R) d h : legal q -> all_finite d -> scattered (inject q) d h ->
  exists e dr, h = inject e /\ legal e /\ d = map Fin dr /\ scattered q dr e.
Proof.
  intros L Hd (d1 & d2 & d3 & d4 & rest & -> & ->). rewrite (x_unbounded_transfer q L).
  assert (Q : exists dr, d1 :: d2 :: d3 :: d4 :: rest = map Fin dr).
  { revert Hd. generalize (d1 :: d2 :: d3 :: d4 :: rest) as l. induction l as [|x l IH]; intros H; [now exists []|].
    destruct (H x (or_introl eq_refl)) as [r ->]. destruct IH as [dr ->]; [intros y Hy; apply H; now right|]. now exists (r :: dr). }
  destruct Q as (dr & Q). destruct dr as [|r1 [|r2 [|r3 [|r4 dr]]]]; try discriminate Q. cbn [map] in Q. injection Q as -> -> -> -> ->.
  set (u := get_unbounded_mah_params q).
  set (w := mkUParams (u_logm0 u + r1) (u_logtc u + r2) (u_early_index u + r3) (u_late_index u + r4) (u_t_peak u)).
  exists (get_bounded_mah_params w), (r1 :: r2 :: r3 :: r4 :: dr). refine (conj _ (conj (bounded_legal _) (conj eq_refl _))).
  - reflexivity.
  - exists r1, r2, r3, r4, dr. split; reflexivity.
Qed.

(** Outside the bounds the scatter is not a number. *)
Definition too_big (m : R) (x : xr) : Prop := x = NaN \/ x = PInf \/ exists r, x = Fin r /\ m < r.

Lemma x_unbounded_big x : too_big 17 x -> get_unbounded_diffmah_param x (Fin 0, Fin 17) = NaN.
Proof.
  destruct (x_unbounded_param x 0 17 ltac:(lra)) as (_ & _ & _ & H1 & H2).
  intros [->|[->|(r & -> & B)]]; [apply H2; tauto|apply H2; tauto|apply (H1 r); [reflexivity|lra]].
Qed.

Lemma unbounded_logm0_x (m : DiffmahParams xr) : u_logm0 (get_unbounded_mah_params m) = get_unbounded_diffmah_param (logm0 m) (Fin 0, Fin 17).
Proof. unfold get_unbounded_mah_params. now destruct (get_u_early_late _ _). Qed.

Lemma bounded_logm0_x (u : DiffmahUParams xr) : logm0 (get_bounded_mah_params u) = get_bounded_diffmah_param (u_logm0 u) (Fin 0, Fin 17).
Proof. unfold get_bounded_mah_params. now destruct (get_early_late _ _). Qed.

Lemma scattered_big (m : DiffmahParams xr) d h : scattered m d h -> too_big 17 (logm0 m) -> logm0 h = NaN.
Proof.
  intros (d1 & d2 & d3 & d4 & rest & -> & ->) B. rewrite bounded_logm0_x. cbn [u_logm0].
  rewrite unbounded_logm0_x, (x_unbounded_big _ B). cbn [nadd Num_xr xadd]. apply x_bounded_param_inf.
Qed.

Lemma x_max_big (a m : R) (y : xr) : m < a -> y <> MInf -> too_big m (nmaximum (Fin a) y).
Proof.
  intros H Hy. unfold nmaximum. destruct y as [b| | |]; [|right; left; reflexivity|congruence|left; reflexivity].
  cbn. unfold Rleb. destruct (Rle_dec b a); [right; right; eauto|]. destruct (Rle_dec a b); [right; right; exists b; split; [reflexivity|lra]|lra].
Qed.
Lemma x_max_big' (a m : R) (y : xr) : m < a -> too_big m (nmaximum (Fin a) y).
Proof.
  intros H. destruct y as [b| | |]; [apply x_max_big; [assumption|discriminate]..| |left; reflexivity].
  unfold nmaximum. cbn. right. right. eauto.
Qed.

Lemma logm0_too_big (p : rec R) s lgm t (tp : xr) v : legal_pop p -> In s four_populations -> t <= 15 -> 1699/100 <= lgm ->
  pred_logm0_kern s (xrec p) (Fin lgm) (Fin t) tp = Ok v -> too_big 17 v.
Proof.
  intros L Hs Ht Hl. destruct (m0_fields p s L Hs) as (y0 & l0 & a0 & b0 & x0 & y1 & l1 & c1 & a1 & b1 & x1 & E1 & E2 & E3 & E4 & E5 & E6 & E7 & E8 & E9 & E10 & E11
    & B1 & B2 & B3 & B4 & B5 & B6 & B7 & B8).
  unfold pred_logm0_kern, pred_c0_kern, pred_c1_kern. rewrite !getattr_x, E1, E2, E3, E4, E5. cbn [bind]. rewrite E6, E7, E8, E9, E10, E11. cbn [bind].
  intros H. apply Ok_inj in H. subst v. unfold clip_min, LGM0_C0_XTP, LGM0_C1_XTP, LGM0_GLOBAL_K, LGM0_CLIP_TP_K, TP_LGMP. cbn [nconst Num_xr].
  rewrite !x_sig_slope.
  pose proof (sigmoid_range_le t x0 (1/4) l0 0 (-15/100) 0 ltac:(lra) ltac:(lra)) as S0.
  assert (C0 : too_big (1/100) (nmaximum (Fin (sig_slope t 15 y0 x0 (1/4) l0 0)) (nadd (Fin a0) (nmul (Fin b0) tp)))).
  { apply x_max_big'. unfold sig_slope. cbn [nadd nmul nsub Num_R]. nra. }
  assert (C1 : exists w, sigmoid tp (Fin c1) (Fin 1) (Fin a1) (Fin b1) = w /\ (w = NaN \/ exists q, w = Fin q /\ 0 < q)).
  { eexists. split; [reflexivity|]. destruct tp as [tp| | |].
    - right. rewrite x_sigmoid. eexists. split; [reflexivity|]. pose proof (sigmoid_range tp c1 1 a1 b1 0 1 ltac:(lra) ltac:(lra)). lra.
    - right. exists (a1 + (b1 - a1) * 1). unfold sigmoid. cbn. unfold xscale_inf.
      rewrite Reqb_f by lra. rewrite Rltb_t by lra. cbn. split; [reflexivity|lra].
    - right. exists (a1 + (b1 - a1) * 0). unfold sigmoid. cbn. unfold xscale_inf.
      rewrite Reqb_f by lra. rewrite Rltb_t by lra. cbn. split; [reflexivity|lra].
    - left. reflexivity. }
  destruct C1 as (w & -> & C1).
  assert (C1' : exists z, nmaximum (Fin (sig_slope t 10 y1 x1 (1/4) l1 0)) w = z /\ (z = NaN \/ exists q, z = Fin q /\ 0 < q)).
  { eexists. split; [reflexivity|]. destruct C1 as [->|(q & -> & Hq)]; [left; reflexivity|]. right. rewrite x_max. eexists. split; [reflexivity|].
    pose proof (clip_min_le (sig_slope t 10 y1 x1 (1/4) l1 0) q) as [_ K]. unfold clip_min in K. lra. }
  destruct C1' as (z & -> & C1'). unfold too_big in *.
  destruct C0 as [->|[->|(r & -> & Hr)]]; destruct C1' as [->|(q & -> & Hq)]; cbn; try (left; reflexivity).
  - right. left. reflexivity.
  - right. right. eexists. split; [reflexivity|]. nra.
Qed.

(** ** Floats: the generators run *)

Lemma getattrs_x (p : rec R) ks : getattrs (xrec p) ks = match getattrs p ks with Ok vs => Ok (map Fin vs) | Err e => Err e end.
Proof.
  induction ks as [|k ks IH]; cbn [getattrs]; [reflexivity|]. rewrite getattr_x. destruct (getattr p k); cbn [bind]; [|reflexivity].
  rewrite IH. now destruct (getattrs p ks).
Qed.

Lemma select_x names (p q : rec R) : select names p = Ok q -> select names (xrec p) = Ok (xrec q).
Proof.
  unfold select. rewrite getattrs_x. destruct (getattrs p names) as [vs|]; cbn [bind]; [|discriminate].
  unfold make. rewrite map_length. destruct (Nat.eqb _ _); [|discriminate]. intros H. apply Ok_inj in H. subst q. f_equal.
  unfold xrec. revert vs. induction names as [|k ns IH]; intros [|v vs]; cbn; try reflexivity. now rewrite IH.
Qed.

Lemma components_x (p : rec R) ps : get_component_model_params p = Ok ps -> get_component_model_params (xrec p) = Ok (map xrec ps).
Proof.
  unfold get_component_model_params. generalize COMPONENTS as cs. intros cs. revert ps. induction cs as [|c cs IH]; intros ps; cbn [mapM].
  - intros H. apply Ok_inj in H. now subst ps.
  - destruct (select (c_names c) p) as [q|] eqn:E; cbn [bind]; [|discriminate]. rewrite (select_x _ _ _ E). cbn [bind].
    destruct (mapM _ cs) as [qs|]; cbn [bind]; [|discriminate]. intros H. apply Ok_inj in H. subst ps. now rewrite (IH qs eq_refl).
Qed.

Lemma x_cov (p : rec R) lgm n M : get_diffmahpop_cov p lgm = Ok (n, M) -> exists M', get_diffmahpop_cov (xrec p) (Fin lgm) = Ok (n, M').
Proof.
  assert (S : forall q, cov_std (xrec p) (Fin lgm) q = rfin (cov_std p lgm q)).
  { intros q. unfold cov_std. xfields p. reflexivity. }
  unfold get_diffmahpop_cov, get_cov_params. rewrite !S.
  destruct (cov_std p lgm "logm0"); cbn [bind rfin]; [|discriminate]. destruct (cov_std p lgm "logtc"); cbn [bind rfin]; [|discriminate].
  destruct (cov_std p lgm "early"); cbn [bind rfin]; [|discriminate]. destruct (cov_std p lgm "late"); cbn [bind rfin]; [|discriminate].
  assert (Ff : fields (xrec p) = fields p).
  { unfold fields, xrec. rewrite map_map. reflexivity. }
  rewrite Ff, getattrs_x. destruct (getattrs p _) as [off|]; cbn [bind]; [|discriminate].
  unfold cholesky_from_params. cbn [map app List.length]. rewrite map_length. intros H. apply Ok_inj in H. injection H as <- _. eexists. reflexivity.
Qed.

Lemma x_frac (p : rec R) lgm t : frac_early_cens_kern (xrec p) (Fin lgm) (Fin t) = rfin (frac_early_cens_kern p lgm t).
Proof. unfold frac_early_cens_kern. xfields p. reflexivity. Qed.

Lemma x_mean_tp_total g (p : rec R) lgm t tp : legal_pop p ->
  (exists m, mean_diffmah_params_early_t_peak g (xrec p) (Fin lgm) (Fin t) (Fin tp) = Ok m) /\
  (exists m, mean_diffmah_params_late_t_peak g (xrec p) (Fin lgm) (Fin t) (Fin tp) = Ok m).
Proof.
  intros L. destruct (legal_components p L) as (a & b & c & d & e & f & h & i & j & E & _ & _ & Pc & Pd & Pe & Pf & Ph).
  destruct (mean_kernels_ok g c d e f h lgm t tp Pc Pd Pe Pf Ph) as ((v0 & v1 & v2 & v3 & E0 & E1 & E2 & E3) & (w0 & w1 & w2 & w3 & F0 & F1 & F2 & F3)).
  apply components_x in E. cbn [map] in E.
  assert (Q : logm0_of g (xrec c) (xrec d) = xrec (logm0_of g c d)) by now destruct g.
  split.
  - unfold mean_diffmah_params_early_t_peak. rewrite E. cbn [bind unpack9]. rewrite Q, x_logm0, E0. cbn [bind rfin]. rewrite x_logtc, E1. cbn [bind rfin].
    rewrite x_early, E2. cbn [bind rfin]. rewrite x_late, E3. cbn [bind rfin]. eexists. reflexivity.
  - unfold mean_diffmah_params_late_t_peak. rewrite E. cbn [bind unpack9]. rewrite Q, x_logm0, F0. cbn [bind rfin]. rewrite x_logtc, F1. cbn [bind rfin].
    rewrite x_early, F2. cbn [bind rfin]. rewrite x_late, F3. cbn [bind rfin]. eexists. reflexivity.
Qed.

Lemma x_single_total F (G : rng xr) g (p : rec R) lgm t k lgt0 tp : legal_pop p -> shapely G ->
  exists e l f tr, mc_diffmah_params_single F G g (xrec p) (Fin lgm) (Fin t) k lgt0 (Some (Fin tp)) = (Ok (e, l, f), tr).
Proof.
  intros L [_ HG]. destruct (x_mean_tp_total g p lgm t tp L) as [(me & Ee) (ml & El)].
  destruct (frac_early_range p lgm t) as (f & Ef & _); [apply pop_components_provided; [in_list|exact L]|].
  pose proof (x_frac p lgm t) as Ef'. rewrite Ef in Ef'. cbn [rfin] in Ef'.
  destruct (covariance p lgm (or_introl L)) as (M & s & Ec & _). apply x_cov in Ec. destruct Ec as (M' & Ec).
  assert (D : forall k' m, exists u, with_tp (add_rows (without_tp m) (deviation G k' (4%nat, M'))) (u_t_peak m) = Ok u).
  { intros k' m. specialize (HG k' (4%nat, M')). cbn in HG.
    destruct (deviation G k' (4%nat, M')) as [|d1 [|d2 [|d3 [|d4 [|d5 ds]]]]]; try discriminate HG.
    eexists. reflexivity. }
  destruct (D (Split k 2 0) (get_unbounded_mah_params me)) as (ue & De).
  destruct (D (Split k 2 1) (get_unbounded_mah_params ml)) as (ul & Dl).
  do 4 eexists. unfold mc_diffmah_params_single.
  eapply mbind_eval; [unfold mean_diffmah_params_t_peak; eapply mbind_eval; [apply mlift_eval, Ee|]; eapply mbind_eval; [apply mlift_eval, El|];
      eapply mbind_eval; [apply mlift_eval, Ef'|]; reflexivity|].
  cbn beta iota zeta. eapply mbind_eval; [apply mlift_eval, Ec|].
  eapply mbind_eval; [reflexivity|]. eapply mbind_eval; [apply mlift_eval, De|].
  eapply mbind_eval; [reflexivity|]. eapply mbind_eval; [apply mlift_eval, Dl|]. reflexivity.
Qed.
