(** A mass history determines its parameters. *)

From Coq Require Import Reals Lra Lia List.
From Flocq Require Import Core.
From Coquelicot Require Import Coquelicot.
From Verif Require Import Model_Num Model_Kernels Spec_Kernels RealAux Proofs_Kernels.
Local Open Scope R_scope.

(** A straight line that tends to zero is zero. *)
Lemma line_zero a b B Y : (forall y, Y <= y -> 1 <= y -> Rabs (a * y + b) <= B / y) -> a = 0 /\ b = 0.
Proof.
  intros H. set (Z := Rmax 1 Y).
  assert (HZ : 1 <= Z /\ Y <= Z) by (split; [apply Rmax_l|apply Rmax_r]).
  assert (HB : 0 <= B).
  { pose proof (H Z ltac:(lra) ltac:(lra)) as Q. pose proof (Rabs_pos (a * Z + b)).
    replace B with (B / Z * Z) by (field; lra). apply Rmult_le_pos; lra. }
  assert (HBy : forall y, Z <= y -> B / y <= B).
  { intros y Hy. apply Rmult_le_reg_r with y; [lra|]. unfold Rdiv. rewrite Rmult_assoc, Rinv_l by lra. nra. }
  assert (A : a = 0).
  { destruct (Req_dec a 0) as [E|E]; [exact E|exfalso]. pose proof (Rabs_pos_lt a E) as Pa.
    set (y := Z + (Rabs b + B + 1) / Rabs a).
    assert (Py : 0 <= (Rabs b + B + 1) / Rabs a).
    { apply Rmult_le_pos; [pose proof (Rabs_pos b); lra|left; now apply Rinv_0_lt_compat]. }
    assert (Zy : Z <= y) by (unfold y; lra).
    pose proof (H y ltac:(lra) ltac:(lra)) as Q. pose proof (HBy y Zy) as Q2.
    assert (T : Rabs (a * y) <= Rabs (a * y + b) + Rabs b).
    { replace (a * y) with ((a * y + b) + - b) at 1 by ring. eapply Rle_trans; [apply Rabs_triang|].
      rewrite Rabs_Ropp. lra. }
    rewrite Rabs_mult, (Rabs_right y) in T by lra.
    assert (E2 : Rabs a * y = Rabs a * Z + (Rabs b + B + 1)) by (unfold y; field; lra).
    assert (0 < Rabs a * Z) by (apply Rmult_lt_0_compat; lra). lra. }
  split; [exact A|]. subst a.
  destruct (Req_dec b 0) as [E|E]; [exact E|exfalso]. pose proof (Rabs_pos_lt b E) as Pb.
  set (y := Z + 2 * B / Rabs b).
  assert (Py : 0 <= 2 * B / Rabs b) by (apply Rmult_le_pos; [lra|left; now apply Rinv_0_lt_compat]).
  assert (Zy : Z <= y) by (unfold y; lra).
  pose proof (H y ltac:(lra) ltac:(lra)) as Q. rewrite Rmult_0_l, Rplus_0_l in Q.
  assert (Q2 : Rabs b * y <= B).
  { replace B with (B / y * y) by (field; lra). apply Rmult_le_compat_r; lra. }
  assert (E2 : Rabs b * y = Rabs b * Z + 2 * B) by (unfold y; field; lra).
  assert (0 < Rabs b * Z) by (apply Rmult_lt_0_compat; lra). lra.
Qed.

(** The sigmoid far to the left. *)
Lemma tail_bound c y : 1 <= y -> logistic (35 / 10 * (- y - c)) <= exp (- (35 / 10) * c) * / (y * y).
Proof.
  intros Hy. apply Rle_trans with (exp (35 / 10 * (- y - c))).
  - unfold logistic. pose proof (exp_pos (- (35 / 10 * (- y - c)))) as P.
    replace (exp (35 / 10 * (- y - c))) with (/ exp (- (35 / 10 * (- y - c)))) by (rewrite <- exp_Ropp; f_equal; ring).
    apply Rinv_le_contravar; lra.
  - replace (35 / 10 * (- y - c)) with (- (35 / 10) * c + - (35 / 10 * y)) by ring. rewrite exp_plus.
    apply Rmult_le_compat_l; [left; apply exp_pos|]. rewrite exp_Ropp. apply Rinv_le_contravar; [nra|].
    pose proof (exp_ineq1_le y) as L. apply Rle_trans with (exp (y + y)).
    + rewrite exp_plus. nra.
    + destruct (Rle_lt_or_eq_dec (y + y) (35 / 10 * y) ltac:(lra)) as [Q|Q]; [left; now apply exp_increasing|rewrite Q; lra].
Qed.

Lemma exp_inj x y : exp x = exp y -> x = y.
Proof. intros H. rewrite <- (ln_exp x), <- (ln_exp y). now rewrite H. Qed.

Section Same.
  Variables x0 m c e l m' c' e' l' X : R.
  Hypothesis Hle : l < e.
  Hypothesis Hle' : l' < e'.
  Hypothesis Same : forall x, x <= X -> plaw x0 m c e l x = plaw x0 m' c' e' l' x.

  Lemma same_line : e = e' /\ m = m'.
  Proof.
    set (w := exp (- (35 / 10) * c)). set (w' := exp (- (35 / 10) * c')).
    assert (Pw : 0 < w) by apply exp_pos. assert (Pw' : 0 < w') by apply exp_pos.
    set (B := ((e - l) * w + (e' - l') * w') * (1 + Rabs x0)).
    destruct (line_zero (e' - e) ((e' - e) * x0 + (m - m')) B (- X)) as [E1 E2].
    - intros y HY Hy. pose proof (Same (- y) ltac:(lra)) as S. unfold plaw, idx in S.
      pose proof (tail_bound c y Hy) as T. pose proof (tail_bound c' y Hy) as T'. fold w in T. fold w' in T'.
      pose proof (logistic_bounds (35 / 10 * (- y - c))) as Bs. pose proof (logistic_bounds (35 / 10 * (- y - c'))) as Bs'.
      set (s := logistic (35 / 10 * (- y - c))) in *. set (s' := logistic (35 / 10 * (- y - c'))) in *.
      match goal with |- Rabs ?z <= _ => replace z with (((l' - e') * s' - (l - e) * s) * (- y - x0)) by nra end.
      rewrite Rabs_mult.
      assert (I : 0 < / (y * y)) by (apply Rinv_0_lt_compat; nra).
      assert (A1 : Rabs ((l' - e') * s' - (l - e) * s) <= ((e - l) * w + (e' - l') * w') * / (y * y)).
      { assert ((e - l) * s <= (e - l) * (w * / (y * y))) by (apply Rmult_le_compat_l; lra).
        assert ((e' - l') * s' <= (e' - l') * (w' * / (y * y))) by (apply Rmult_le_compat_l; lra).
        assert (0 <= (e - l) * s) by (apply Rmult_le_pos; lra). assert (0 <= (e' - l') * s') by (apply Rmult_le_pos; lra).
        apply Rabs_le. lra. }
      assert (A2 : Rabs (- y - x0) <= (1 + Rabs x0) * y).
      { unfold Rminus. eapply Rle_trans; [apply Rabs_triang|]. rewrite !Rabs_Ropp, (Rabs_right y) by lra.
        pose proof (Rabs_pos x0). nra. }
      apply Rle_trans with (((e - l) * w + (e' - l') * w') * / (y * y) * ((1 + Rabs x0) * y)).
      + apply Rmult_le_compat; auto using Rabs_pos.
      + right. unfold B. field. lra.
    - assert (Ee : e = e') by lra. split; [exact Ee|]. subst e'. lra.
  Qed.

  Lemma same_curve : e = e' /\ m = m' /\ l = l' /\ c = c'.
  Proof.
    destruct same_line as [E M]. split; [exact E|]. split; [exact M|].
    assert (K : forall x, x <= X -> x < x0 ->
      (l - e) * (1 + exp (35 / 10 * c') * exp (- (35 / 10) * x)) = (l' - e) * (1 + exp (35 / 10 * c) * exp (- (35 / 10) * x))).
    { intros x HX H0. pose proof (Same x HX) as S. unfold plaw, idx in S. rewrite <- E, <- M in S.
      assert (S2 : (l - e) * logistic (35 / 10 * (x - c)) = (l' - e) * logistic (35 / 10 * (x - c'))).
      { apply Rmult_eq_reg_r with (x - x0); [|lra]. lra. }
      unfold logistic in S2.
      replace (- (35 / 10 * (x - c))) with (35 / 10 * c + - (35 / 10) * x) in S2 by ring.
      replace (- (35 / 10 * (x - c'))) with (35 / 10 * c' + - (35 / 10) * x) in S2 by ring.
      rewrite !exp_plus in S2.
      pose proof (exp_pos (35 / 10 * c)) as P1. pose proof (exp_pos (35 / 10 * c')) as P2. pose proof (exp_pos (- (35 / 10) * x)) as P3.
      set (a := exp (35 / 10 * c) * exp (- (35 / 10) * x)) in *. set (b := exp (35 / 10 * c') * exp (- (35 / 10) * x)) in *.
      assert (Pa : 0 < a) by (apply Rmult_lt_0_compat; assumption). assert (Pb : 0 < b) by (apply Rmult_lt_0_compat; assumption).
      transitivity ((l - e) * / (1 + a) * (1 + a) * (1 + b)); [field; lra|]. rewrite S2. field. lra. }
    set (z := Rmin X x0 - 1). pose proof (Rmin_l X x0) as M1. pose proof (Rmin_r X x0) as M2.
    pose proof (K z ltac:(unfold z; lra) ltac:(unfold z; lra)) as K1.
    pose proof (K (z - 1) ltac:(unfold z; lra) ltac:(unfold z; lra)) as K2.
    assert (L : exp (- (35 / 10) * z) < exp (- (35 / 10) * (z - 1))) by (apply exp_increasing; lra).
    set (a := exp (35 / 10 * c)) in *. set (b := exp (35 / 10 * c')) in *.
    set (E1 := exp (- (35 / 10) * z)) in *. set (E2 := exp (- (35 / 10) * (z - 1))) in *.
    assert (Q : (l - e) * b = (l' - e) * a).
    { apply Rmult_eq_reg_r with (E2 - E1); [|lra]. lra. }
    assert (Ll : l = l').
    { assert (T : (l - e) * b * E1 = (l' - e) * a * E1) by (now rewrite Q). lra. }
    split; [exact Ll|]. subst l'.
    assert (Ab : a = b) by (apply Rmult_eq_reg_l with (l - e); lra).
    apply exp_inj in Ab. lra.
  Qed.
End Same.

Lemma kern_at p t lgt0 : t <= t_peak p ->
  logmh_at_t_obs p t lgt0 = plaw lgt0 (logm0 p) (logtc p) (early_index p) (late_index p) (log10 t).
Proof.
  intros H. unfold logmh_at_t_obs. rewrite log_mah_kern_min, log_mah_noq_R, Rmin_left by exact H. reflexivity.
Qed.

(** From an initial stretch of the history, however short. *)
Lemma shape_determined p q lgt0 T : late_index p < early_index p -> late_index q < early_index q ->
  0 < t_peak p -> 0 < t_peak q -> 0 < T ->
  (forall t, 0 < t <= T -> logmh_at_t_obs p t lgt0 = logmh_at_t_obs q t lgt0) ->
  logm0 p = logm0 q /\ logtc p = logtc q /\ early_index p = early_index q /\ late_index p = late_index q.
Proof.
  intros Lp Lq Pp Pq PT H. set (T' := Rmin T (Rmin (t_peak p) (t_peak q))).
  assert (PT' : 0 < T') by (unfold T'; repeat apply Rmin_glb_lt; assumption).
  assert (B : T' <= T /\ T' <= t_peak p /\ T' <= t_peak q).
  { unfold T'. split; [apply Rmin_l|]. split; (eapply Rle_trans; [apply Rmin_r|]); [apply Rmin_l|apply Rmin_r]. }
  destruct (same_curve lgt0 (logm0 p) (logtc p) (early_index p) (late_index p)
    (logm0 q) (logtc q) (early_index q) (late_index q) (log10 T') Lp Lq) as (E1 & E2 & E3 & E4); [|auto].
  intros x Hx. pose proof (pow10_pos x) as Px.
  assert (Hp : pow10 x <= T').
  { rewrite <- (pow10_log10 T' PT'). now apply pow10_le. }
  pose proof (H (pow10 x) ltac:(lra)) as E. rewrite !kern_at, log10_pow10 in E by lra. exact E.
Qed.

(** The peak, as far as the history shows it. *)
Lemma peak_determined p q t0 : legal p -> legal q -> 0 < t0 ->
  (forall t, 0 < t <= t0 -> logmh_at_t_obs p t (log10 t0) = logmh_at_t_obs q t (log10 t0)) ->
  Rmin (t_peak p) t0 = Rmin (t_peak q) t0.
Proof.
  intros Hp Hq H0 H.
  assert (D : logm0 p = logm0 q /\ logtc p = logtc q /\ early_index p = early_index q /\ late_index p = late_index q).
  { unfold legal in *. apply (shape_determined p q (log10 t0) t0); try lra. exact H. }
  assert (W : forall p q, legal p -> legal q ->
    (forall t, 0 < t <= t0 -> logmh_at_t_obs p t (log10 t0) = logmh_at_t_obs q t (log10 t0)) ->
    logm0 p = logm0 q /\ logtc p = logtc q /\ early_index p = early_index q /\ late_index p = late_index q ->
    Rmin (t_peak p) t0 < Rmin (t_peak q) t0 -> False).
  { clear - H0. intros p q Hp Hq H (E1 & E2 & E3 & E4) L.
    set (a := Rmin (t_peak p) t0) in *. set (b := Rmin (t_peak q) t0) in *.
    assert (Pa : 0 < a) by (unfold a; unfold legal in Hp; apply Rmin_glb_lt; lra).
    assert (Bb : b <= t0 /\ b <= t_peak q) by (unfold b; split; [apply Rmin_r|apply Rmin_l]).
    assert (Ba : a = t_peak p).
    { unfold a, Rmin in *. destruct (Rle_dec (t_peak p) t0); [reflexivity|exfalso; lra]. }
    pose proof (H b ltac:(lra)) as E. rewrite (kern_at q b) in E by lra.
    unfold logmh_at_t_obs in E. rewrite log_mah_kern_min, log_mah_noq_R, Rmin_right in E by lra.
    rewrite <- E1, <- E2, <- E3, <- E4 in E.
    assert (X : log10 (t_peak p) < log10 b) by (apply log10_lt; lra).
    assert (Y : log10 b <= log10 t0) by (apply log10_le; lra).
    unfold legal in Hp.
    pose proof (plaw_increasing (log10 t0) (logm0 p) (logtc p) (early_index p) (late_index p)
      ltac:(lra) ltac:(lra) (log10 (t_peak p)) (log10 b) X ltac:(lra)). lra. }
  destruct (Rtotal_order (Rmin (t_peak p) t0) (Rmin (t_peak q) t0)) as [L|[E|L]]; [exfalso|exact E|exfalso].
  - exact (W p q Hp Hq H D L).
  - apply (W q p Hq Hp); [intros t Ht; symmetry; now apply H| |exact L]. intuition.
Qed.

(** Early masses are as small as one likes. *)
Lemma early_mass_small p lgt0 T eps : legal p -> 0 < T -> 0 < eps ->
  exists b, 0 < b <= T /\ forall t, 0 < t <= b -> mass p lgt0 t < eps.
Proof.
  intros Hp HT He. set (y := Rmin (lgt0 - 1) (lgt0 + 10 * (log10 eps - 17))).
  set (b := Rmin (pow10 y) (Rmin T (t_peak p / 2))).
  pose proof (pow10_pos y) as Py. assert (Ptp : 0 < t_peak p / 2) by (unfold legal in Hp; lra).
  assert (B : b <= pow10 y /\ b <= T /\ b <= t_peak p / 2).
  { unfold b. split; [apply Rmin_l|]. split; (eapply Rle_trans; [apply Rmin_r|]); [apply Rmin_l|apply Rmin_r]. }
  assert (Pb : 0 < b) by (unfold b; repeat apply Rmin_glb_lt; assumption).
  exists b. split; [lra|]. intros t Ht.
  assert (Ly : log10 t <= y) by (apply log10_le_pow10; lra).
  pose proof (Rmin_l (lgt0 - 1) (lgt0 + 10 * (log10 eps - 17))) as M1. fold y in M1.
  pose proof (Rmin_r (lgt0 - 1) (lgt0 + 10 * (log10 eps - 17))) as M2. fold y in M2.
  assert (E : logmh_at_t_obs p t lgt0 < log10 eps).
  { rewrite kern_at by lra. unfold plaw. unfold legal in Hp.
    pose proof (idx_between (logtc p) (early_index p) (late_index p) ltac:(lra) (log10 t)) as I.
    set (i := idx _ _ _ _) in *. assert (i * (log10 t - lgt0) <= 1 / 10 * (log10 t - lgt0)) by nra. lra. }
  unfold mass. change (exp (logmh_at_t_obs p t lgt0 * ln 10)) with (pow10 (logmh_at_t_obs p t lgt0)).
  rewrite <- (pow10_log10 eps He). now apply pow10_lt.
Qed.

(** Equal rates on an initial stretch mean equal masses there. *)
Lemma rates_determine_mass p q lgt0 lgt0' T : legal p -> legal q -> 0 < T ->
  (forall t, 0 < t <= T -> rate p lgt0 t = rate q lgt0' t) ->
  forall t, 0 < t <= T -> logmh_at_t_obs p t lgt0 = logmh_at_t_obs q t lgt0'.
Proof.
  intros Hp Hq HT H t Ht.
  assert (D : forall t1, 0 < t1 <= t -> mass p lgt0 t - mass p lgt0 t1 = mass q lgt0' t - mass q lgt0' t1).
  { intros t1 H1.
    assert (Ip : is_RInt (fun s => rate p lgt0 s * 1000000000) t1 t (mass p lgt0 t - mass p lgt0 t1))
      by (destruct Hp as (_ & _ & _ & _ & P5); apply mass_is_integral; lra).
    assert (Iq : is_RInt (fun s => rate q lgt0' s * 1000000000) t1 t (mass q lgt0' t - mass q lgt0' t1))
      by (destruct Hq as (_ & _ & _ & _ & P5); apply mass_is_integral; lra).
    assert (Iq' : is_RInt (fun s => rate p lgt0 s * 1000000000) t1 t (mass q lgt0' t - mass q lgt0' t1)).
    { eapply is_RInt_ext; [|exact Iq]. intros x Hx. rewrite Rmin_left, Rmax_right in Hx by lra. cbv beta. rewrite H by lra. reflexivity. }
    rewrite <- (is_RInt_unique _ _ _ _ Ip). exact (is_RInt_unique _ _ _ _ Iq'). }
  assert (K : mass p lgt0 t = mass q lgt0' t).
  { destruct (Req_dec (mass p lgt0 t) (mass q lgt0' t)) as [E|E]; [exact E|exfalso].
    set (d := Rabs (mass p lgt0 t - mass q lgt0' t)).
    assert (Pd : 0 < d) by (apply Rabs_pos_lt; lra).
    destruct (early_mass_small p lgt0 t d Hp ltac:(lra) Pd) as (b & Hb & Sb).
    destruct (early_mass_small q lgt0' b d Hq ltac:(lra) Pd) as (b' & Hb' & Sb').
    pose proof (Sb b' ltac:(lra)) as S1. pose proof (Sb' b' ltac:(lra)) as S2.
    pose proof (D b' ltac:(lra)) as Q.
    assert (P1 : 0 < mass p lgt0 b') by apply exp_pos. assert (P2 : 0 < mass q lgt0' b') by apply exp_pos.
    unfold d, Rabs in S1, S2. destruct (Rcase_abs (mass p lgt0 t - mass q lgt0' t)); lra. }
  unfold mass in K. apply exp_inj in K. apply Rmult_eq_reg_r with (ln 10); [exact K|].
  pose proof ln10_pos. lra.
Qed.
