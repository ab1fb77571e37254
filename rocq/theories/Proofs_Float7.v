(** The round trip of the bounds in machine arithmetic. *)

From Coq Require Import Reals ZArith Lra Lia List.
From Flocq Require Import Core Relative.
From Verif Require Import Model_Num Model_Kernels Model_Float Spec_Kernels Spec_Float RealAux
  Proofs_Kernels Proofs_Float Proofs_Float2 Proofs_Float3 Proofs_Float4 Proofs_Float6.
Local Open Scope R_scope.

Lemma ln_near x : Rabs x <= / 100 -> Rabs (ln (1 + x)) <= 102 / 100 * Rabs x.
Proof.
  intros H. pose proof (Rabs_le_inv _ _ H) as B.
  assert (U : ln (1 + x) <= x).
  { destruct (Req_dec x 0) as [->|N]; [rewrite Rplus_0_r, ln_1; lra|].
    rewrite <- (ln_exp x) at 2. left. apply ln_increasing; [lra|]. now apply exp_ineq1. }
  assert (L : - ln (1 + x) <= - x / (1 + x)).
  { rewrite <- ln_Rinv by lra. set (y := - x / (1 + x)).
    assert (E : / (1 + x) = 1 + y) by (unfold y; field; lra). rewrite E.
    destruct (Req_dec y 0) as [->|N]; [rewrite Rplus_0_r, ln_1; lra|].
    rewrite <- (ln_exp y) at 2. left. apply ln_increasing; [|now apply exp_ineq1].
    rewrite <- E. apply Rinv_0_lt_compat. lra. }
  destruct (Rle_or_lt 0 x) as [Z|Z].
  - rewrite (Rabs_right x) by lra. apply Rabs_le. split; [|lra].
    assert (Q : - x / (1 + x) <= 0).
    { unfold Rdiv. assert (0 < / (1 + x)) by (apply Rinv_0_lt_compat; lra). nra. }
    assert (0 <= ln (1 + x)) by lra. lra.
  - rewrite (Rabs_left x) by lra. apply Rabs_le. split; [|lra].
    assert (Q : - x / (1 + x) <= 102 / 100 * - x).
    { apply Rmult_le_reg_r with (1 + x); [lra|].
      replace (- x / (1 + x) * (1 + x)) with (- x) by (field; lra). nra. }
    lra.
Qed.

Section Trip.
  Variables emin prec : Z.
  Hypothesis Hprec : (24 <= prec)%Z.
  Hypothesis Hemin : (emin <= - prec - 100)%Z.
  Variable F : arith.
  Hypothesis HA : faithful emin prec F.
  Hypothesis HLn : forall x, 0 < x -> Rabs (lib_log F x - ln x) <= 4 * bpow radix2 (- prec) * Rmax 1 (Rabs (ln x)).

  Local Notation u := (bpow radix2 (- prec)).
  Local Notation rd := (rnd F).
  Local Notation near := (near prec).
  Local Notation rel := (rel prec).

  (** The spread of the logistic curve. *)
  Lemma width_bound X : Rabs X <= 71 / 10 ->
    / (logistic X * (1 - logistic X)) <= 2700.
  Proof.
    intros H. apply Rabs_le_inv in H.
    assert (E : / (logistic X * (1 - logistic X)) = 2 + exp X + exp (- X)).
    { unfold logistic. rewrite exp_Ropp. pose proof (exp_pos X). field. split; lra. }
    rewrite E.
    assert (B : forall y, y <= 71 / 10 -> exp y <= 2187 * (10 / 9)).
    { intros y Hy. apply Rle_trans with (exp (1+1+1+1+1+1+1 + / 10)).
      - destruct (Rle_lt_or_eq_dec y (1+1+1+1+1+1+1 + / 10) ltac:(lra)) as [L|EQ]; [left; now apply exp_increasing|rewrite EQ; lra].
      - rewrite !exp_plus. pose proof exp_le_3 as E3. pose proof (exp_pos 1) as P1.
        assert (T : exp (/ 10) <= 10 / 9).
        { pose proof (exp_ineq1_le (- / 10)) as Q. rewrite exp_Ropp in Q. pose proof (exp_pos (/ 10)) as P.
          apply Rmult_le_reg_l with (/ exp (/ 10)); [now apply Rinv_0_lt_compat|].
          rewrite Rinv_l by lra. lra. }
        apply Rmult_le_compat; [|left; apply exp_pos| |exact T].
        + repeat apply Rmult_le_pos; lra.
        + set (e := exp 1) in *. assert (e * e <= 9) by nra. assert (e * e * e <= 27) by nra.
          assert (e * e * e * e <= 81) by nra. assert (e * e * e * e * e <= 243) by nra.
          assert (e * e * e * e * e * e <= 729) by nra. nra. }
    destruct (Rle_or_lt 0 X) as [Z|Z].
    - pose proof (B X ltac:(lra)). assert (exp (- X) <= 1) by (rewrite <- exp_0; destruct (Rle_lt_or_eq_dec (- X) 0 ltac:(lra)) as [L|EQ]; [left; now apply exp_increasing|rewrite EQ; lra]). lra.
    - pose proof (B (- X) ltac:(lra)). assert (exp X <= 1) by (rewrite <- exp_0; left; now apply exp_increasing). lra.
  Qed.

  Lemma rel_inv z r e h : 0 < h -> 0 < r -> rel z r e -> 0 <= e <= 50000 -> rel (h / z) (h / r) (1005/1000 * e).
  Proof.
    intros Hh Hr H He. pose proof (u24 prec Hprec) as Hu. unfold Proofs_Float6.rel in *.
    pose proof (Rabs_le_inv _ _ H) as B.
    assert (E : e * u <= 3 / 1000) by nra.
    assert (Er : e * u * r <= 3 / 1000 * r) by (apply Rmult_le_compat_r; lra).
    assert (Bz : 997 / 1000 * r <= z) by lra.
    assert (Pz : 0 < z) by lra.
    replace (h / z - h / r) with ((r - z) * (h * / (z * r))) by (field; lra).
    assert (PI : 0 < / (z * r)) by (apply Rinv_0_lt_compat, Rmult_lt_0_compat; lra).
    rewrite Rabs_mult, (Rabs_right (h * _)) by (apply Rle_ge, Rmult_le_pos; lra).
    rewrite Rabs_minus_sym.
    apply Rle_trans with (e * u * r * (h * / (z * r))); [apply Rmult_le_compat_r; [apply Rmult_le_pos; lra|exact H]|].
    replace (e * u * r * (h * / (z * r))) with (e * u * h * / z) by (field; lra).
    replace (1005 / 1000 * e * u * (h / r)) with (e * u * h * (1005 / 1000 * / r)) by (field; lra).
    apply Rmult_le_compat_l.
    - apply Rmult_le_pos; [apply Rmult_le_pos; lra|lra].
    - apply Rle_trans with (/ (997 / 1000 * r)); [apply Rinv_le_contravar; lra|].
      replace (/ (997 / 1000 * r)) with (1000 / 997 * / r) by (field; lra).
      apply Rmult_le_compat_r; [left; now apply Rinv_0_lt_compat|lra].
  Qed.

  (** The logarithm inside the inverse. *)
  Lemma log_error z h X : 0 < h -> Rabs X <= 71 / 10 ->
    let s := logistic X in near z (h * s) (148/10 * h) ->
    Rabs (lib_log F (rd (rd (h / z) - 1)) - - X) <= 24 * (/ (s * (1 - s)) * u) /\
    4 <= / (s * (1 - s)) /\ 0 < / (s * (1 - s)) * u <= 17 / 100000.
  Proof.
    intros Hh HX s N6. pose proof (u24 prec Hprec) as Hu.
    pose proof (logistic_bounds X) as Hs. fold s in Hs.
    pose proof (width_bound _ HX) as HG. fold s in HG. set (G := / (s * (1 - s))) in *.
    assert (Ps : 0 < s * (1 - s)) by nra.
    assert (EG : G * (s * (1 - s)) = 1) by (unfold G; field; lra).
    assert (Gs : / s <= G).
    { unfold G. apply Rinv_le_contravar; nra. }
    assert (Is : 0 < / s) by (apply Rinv_0_lt_compat; lra).
    assert (R1 : rel z (h * s) (148/10 * / s)).
    { unfold Proofs_Float6.rel. unfold Proofs_Float4.near in N6. eapply Rle_trans; [exact N6|].
      right. field. lra. }
    assert (R2 : rel (h / z) (/ s) (149/10 * / s)).
    { pose proof (rel_inv z (h * s) (148/10 * / s) h ltac:(lra) ltac:(nra) R1 ltac:(lra)) as Q.
      replace (h / (h * s)) with (/ s) in Q by (field; lra).
      eapply rel_le; [exact Hprec|exact Is|exact Q|lra]. }
    assert (S1 : 1 <= / s).
    { rewrite <- Rinv_1. apply Rinv_le_contravar; lra. }
    assert (R3 : rel (rd (h / z)) (/ s) (149/10 * / s + 102/100)).
    { apply (rel_rd emin prec Hprec Hemin F HA); [lra|exact R2|]. nra. }
    set (q := rd (h / z)) in *. set (a0 := / s - 1).
    assert (Ea0 : a0 = exp (- X)) by (unfold a0, s; apply logistic_inv).
    assert (Pa0 : 0 < a0) by (rewrite Ea0; apply exp_pos).
    assert (Fa0 : a0 = (1 - s) * / s) by (unfold a0; field; lra).
    assert (Ga0 : / s * / s = G * a0).
    { unfold G. rewrite Fa0. field. lra. }
    assert (G4 : 4 <= G).
    { unfold G. replace 4 with (/ / 4) by lra. apply Rinv_le_contravar; [lra|].
      pose proof (pow2_ge_0 (s - / 2)). nra. }
    assert (R4 : rel (q - 1) a0 (16 * G)).
    { unfold Proofs_Float6.rel in *. replace (q - 1 - a0) with (q - / s) by (unfold a0; ring).
      eapply Rle_trans; [exact R3|].
      replace (16 * G * u * a0) with (16 * u * (/ s * / s)) by (rewrite Ga0; ring).
      replace ((149/10 * / s + 102/100) * u * / s) with (u * ((149/10 * / s + 102/100) * / s)) by ring.
      replace (16 * u * (/ s * / s)) with (u * (16 * (/ s * / s))) by ring.
      apply Rmult_le_compat_l; [lra|]. nra. }
    assert (La0 : / 1000000000000000 <= a0).
    { apply Rle_trans with (/ 10000); [lra|]. apply Rmult_le_reg_l with G; [lra|].
      rewrite <- Ga0. nra. }
    assert (R5 : rel (rd (q - 1)) a0 (163/10 * G)).
    { eapply rel_le; [exact Hprec|exact Pa0|apply (rel_rd emin prec Hprec Hemin F HA); [exact La0|exact R4|lra]|lra]. }
    set (a := rd (q - 1)) in *.
    assert (GU : G * u <= 17 / 100000) by nra.
    assert (Ge : 0 < G * u) by nra.
    set (eps := (a - a0) / a0).
    assert (Eeps : Rabs eps <= 163/10 * (G * u)).
    { unfold eps, Rdiv. rewrite Rabs_mult, (Rabs_right (/ a0)) by (left; now apply Rinv_0_lt_compat).
      unfold Proofs_Float6.rel in R5.
      apply Rle_trans with (163/10 * G * u * a0 * / a0).
      - apply Rmult_le_compat_r; [left; now apply Rinv_0_lt_compat|exact R5].
      - right. field. lra. }
    assert (Ea : a = a0 * (1 + eps)) by (unfold eps; field; lra).
    assert (Beps : Rabs eps <= / 100) by lra.
    pose proof (Rabs_le_inv _ _ Beps) as Beps'.
    assert (Pa : 0 < a) by (rewrite Ea; apply Rmult_lt_0_compat; lra).
    assert (E1 : Rabs (ln a - - X) <= 167/10 * (G * u)).
    { rewrite Ea, ln_mult by lra. rewrite Ea0 at 1. rewrite ln_exp.
      replace (- X + ln (1 + eps) - - X) with (ln (1 + eps)) by ring.
      eapply Rle_trans; [apply ln_near; exact Beps|]. lra. }
    assert (Bln : Rabs (ln a) <= 72 / 10).
    { replace (ln a) with ((ln a - - X) + - X) by ring.
      eapply Rle_trans; [apply Rabs_triang|]. rewrite Rabs_Ropp. lra. }
    assert (E2 : Rabs (lib_log F a - - X) <= 24 * (G * u)).
    { replace (lib_log F a - - X) with ((lib_log F a - ln a) + (ln a - - X)) by ring.
      eapply Rle_trans; [apply Rabs_triang|]. pose proof (HLn a Pa) as Hln.
      assert (Rmax 1 (Rabs (ln a)) <= 72 / 10) by (apply Rmax_lub; lra). nra. }
    split; [exact E2|]. split; [exact G4|]. lra.
  Qed.

  (** Into the interval and back out, with the machine values of the lower bound, the
      width, the middle and the steepness. *)
  Definition trip (lo h mid k x : R) : R :=
    let y := rd (lo + rd (h * lib_logistic F (rd (k * rd (x - mid))))) in
    rd (mid - rd (lib_log F (rd (rd (h / rd (y - lo)) - 1)) / k)).

  Lemma trip_error lo h mid k x : 15 / 10 <= h <= 20 -> Rabs lo <= 2 * h -> Rabs (lo + h) <= 21/10 * h ->
    999 / 10000 <= k <= 1001 / 10000 -> Rabs x <= 60 -> Rabs mid <= 11 -> Rabs (k * (x - mid)) <= 71 / 10 ->
    let s := logistic (k * (x - mid)) in
    Rabs (trip lo h mid k x - x) <= 276 * u * / (s * (1 - s)).
  Proof.
    intros Hh Hlo Hhi Hk Hx Hmid HX s.
    pose proof (u24 prec Hprec) as Hu. assert (P20 : (20 <= prec)%Z) by lia.
    pose proof (near_rd emin prec P20 Hemin F HA) as RD.
    pose proof (near_mul prec P20) as MU.
    pose proof (near_exact prec) as EX. pose proof (near_sub prec) as SU. pose proof (near_add prec) as AD.
    pose proof (near_le prec) as LE.
    pose proof (Rabs_le_inv _ _ Hx) as Bx. pose proof (Rabs_le_inv _ _ Hmid) as Bm.
    assert (BX : Rabs (x - mid) <= 72).
    { apply Rabs_le_inv in HX. apply Rabs_le.
      destruct (Rle_or_lt 0 (x - mid)); nra. }
    unfold trip. cbv zeta.
    assert (N1 : near (rd (x - mid)) (x - mid) 73).
    { eapply LE; [apply (RD _ _ _ 72 (SU _ _ _ _ _ _ (EX x) (EX mid)) BX)|]; lra. }
    assert (N2 : near (rd (k * rd (x - mid))) (k * (x - mid)) 22).
    { eapply LE; [apply (RD _ _ (0 * 72 + (1001/10000 + / 10) * 73) (71/10)
        (MU _ _ _ _ _ _ (1001/10000) 72 (EX k) N1 ltac:(rewrite Rabs_pos_eq; lra) BX ltac:(lra) ltac:(lra)) HX)|]; lra. }
    pose proof (near_logistic emin prec F HA _ _ _ N2) as N3. fold s in N3.
    set (S := lib_logistic F (rd (k * rd (x - mid)))) in *.
    pose proof (logistic_bounds (k * (x - mid))) as Hs. fold s in Hs.
    assert (N4 : near (rd (h * S)) (h * s) (113/10 * h)).
    { eapply LE; [apply (RD _ _ _ h (MU _ _ _ _ _ _ h 1 (EX h) N3 ltac:(rewrite Rabs_pos_eq; lra)
        ltac:(rewrite Rabs_pos_eq; lra) ltac:(lra) ltac:(lra)))|]; try lra.
      rewrite Rabs_pos_eq; nra. }
    assert (By : Rabs (lo + h * s) <= 21/10 * h).
    { apply Rabs_le_inv in Hlo. apply Rabs_le_inv in Hhi. apply Rabs_le. nra. }
    assert (N5 : near (rd (lo + rd (h * S))) (lo + h * s) (136/10 * h)).
    { eapply LE; [apply (RD _ _ _ (21/10 * h) (AD _ _ _ _ _ _ (EX lo) N4) By)|]; lra. }
    set (y := rd (lo + rd (h * S))) in *.
    assert (N6 : near (rd (y - lo)) (h * s) (148/10 * h)).
    { pose proof (SU _ _ _ _ _ _ N5 (EX lo)) as Q. replace (lo + h * s - lo) with (h * s) in Q by ring.
      eapply LE; [apply (RD _ _ _ h Q)|]; try lra. rewrite Rabs_pos_eq; nra. }
    set (z := rd (y - lo)) in *.
    destruct (log_error z h (k * (x - mid)) ltac:(lra) HX N6) as (E2 & G4 & Ge).
    fold s in E2, G4, Ge. set (G := / (s * (1 - s))) in *. set (a := rd (rd (h / z) - 1)) in *.
    assert (E3 : Rabs (lib_log F a / k - - (x - mid)) <= 241 * (G * u)).
    { replace (lib_log F a / k - - (x - mid)) with ((lib_log F a - - (k * (x - mid))) * / k) by (field; lra).
      rewrite Rabs_mult, (Rabs_right (/ k)) by (left; apply Rinv_0_lt_compat; lra).
      assert (Ik : 0 <= / k <= 1002 / 100).
      { split; [left; apply Rinv_0_lt_compat; lra|].
        replace (1002 / 100) with (/ (100 / 1002)) by (field; lra). apply Rinv_le_contravar; lra. }
      apply Rle_trans with (24 * (G * u) * (1002 / 100)); [|lra].
      apply Rmult_le_compat; auto using Rabs_pos; lra. }
    pose proof (rd_err emin prec P20 Hemin F HA) as RE.
    assert (B4 : Rabs (lib_log F a / k) <= 73).
    { replace (lib_log F a / k) with ((lib_log F a / k - - (x - mid)) + - (x - mid)) by ring.
      eapply Rle_trans; [apply Rabs_triang|]. rewrite (Rabs_Ropp (x - mid)). lra. }
    assert (E4 : Rabs (rd (lib_log F a / k) - - (x - mid)) <= 260 * (G * u)).
    { replace (rd (lib_log F a / k) - - (x - mid)) with ((rd (lib_log F a / k) - lib_log F a / k) + (lib_log F a / k - - (x - mid))) by ring.
      eapply Rle_trans; [apply Rabs_triang|]. pose proof (RE _ 73 B4 ltac:(lra)). nra. }
    set (w := rd (lib_log F a / k)) in *.
    assert (E5 : Rabs (mid - w - x) <= 260 * (G * u)).
    { replace (mid - w - x) with (- (w - - (x - mid))) by ring. now rewrite Rabs_Ropp. }
    assert (B5 : Rabs (mid - w) <= 601 / 10).
    { replace (mid - w) with ((mid - w - x) + x) by ring. eapply Rle_trans; [apply Rabs_triang|]. lra. }
    replace (rd (mid - w) - x) with ((rd (mid - w) - (mid - w)) + (mid - w - x)) by ring.
    eapply Rle_trans; [apply Rabs_triang|]. pose proof (RE _ (601/10) B5 ltac:(lra)). nra.
  Qed.

  (** Out of the interval and back in. *)
  Definition trip_in (lo h mid k p : R) : R :=
    let x := rd (mid - rd (lib_log F (rd (rd (h / rd (p - lo)) - 1)) / k)) in
    rd (lo + rd (h * lib_logistic F (rd (k * rd (x - mid))))).

  Lemma exp_m1 d : Rabs d <= / 120 -> Rabs (exp d - 1) <= 101 / 100 * Rabs d.
  Proof.
    intros H. apply Rabs_le_inv in H. pose proof (exp_ineq1_le d) as L. pose proof (exp_ineq1_le (- d)) as L'.
    rewrite exp_Ropp in L'. pose proof (exp_pos d) as P.
    assert (Q : (1 - d) * exp d <= 1).
    { apply Rmult_le_reg_r with (/ exp d); [now apply Rinv_0_lt_compat|].
      rewrite Rmult_assoc, Rinv_r by lra. lra. }
    unfold Rabs at 2. destruct (Rcase_abs d); apply Rabs_le; nra.
  Qed.

  Lemma logistic_shift X d : Rabs d <= / 120 ->
    Rabs (logistic (X + d) - logistic X) <= 1021 / 1000 * Rabs d * (logistic X * (1 - logistic X)).
  Proof.
    intros H. pose proof (exp_m1 (- d) ltac:(now rewrite Rabs_Ropp)) as E. rewrite Rabs_Ropp in E.
    assert (Ed : logistic (X + d) - logistic X =
      (1 - exp (- d)) * (logistic X * (1 - logistic X)) * ((1 + exp (- X)) / (1 + exp (- X) * exp (- d)))).
    { unfold logistic. replace (- (X + d)) with (- X + - d) by ring. rewrite exp_plus.
      pose proof (exp_pos (- X)). pose proof (exp_pos (- d)). field. split; nra. }
    rewrite Ed. set (a := exp (- X)) in *. assert (Pa : 0 < a) by apply exp_pos.
    set (w := exp (- d)) in *. pose proof (Rabs_le_inv _ _ E) as B.
    assert (W : 99 / 100 <= w <= 101 / 100).
    { pose proof (Rabs_pos d). lra. }
    pose proof (logistic_bounds X) as Hs. set (s := logistic X) in *.
    assert (Ps : 0 < s * (1 - s)) by nra.
    assert (Q : 0 <= (1 + a) / (1 + a * w) <= 1 + 102 / 10000).
    { assert (0 < 1 + a * w) by nra. split; [apply Rmult_le_pos; [lra|left; now apply Rinv_0_lt_compat]|].
      apply Rmult_le_reg_r with (1 + a * w); [assumption|]. unfold Rdiv. rewrite Rmult_assoc, Rinv_l by lra. nra. }
    rewrite !Rabs_mult. rewrite (Rabs_right s), (Rabs_right (1 - s)), (Rabs_right ((1 + a) / _)) by lra.
    rewrite Rabs_minus_sym in E.
    replace (1021 / 1000 * Rabs d * (s * (1 - s))) with (101 / 100 * Rabs d * (s * (1 - s)) * (1021 / 1010)) by field.
    apply Rmult_le_compat; [|apply Q| |lra].
    - apply Rmult_le_pos; [apply Rabs_pos|lra].
    - apply Rmult_le_compat_r; lra.
  Qed.

  Lemma trip_in_logistic lo h mid k X : 15 / 10 <= h <= 20 ->
    999 / 10000 <= k <= 1001 / 10000 -> Rabs mid <= 11 -> Rabs X <= 71 / 10 ->
    let p := lo + h * logistic X in
    let x := rd (mid - rd (lib_log F (rd (rd (h / rd (p - lo)) - 1)) / k)) in
    near (lib_logistic F (rd (k * rd (x - mid)))) (logistic X) (365/10).
  Proof.
    intros Hh Hk Hmid HX p. cbv zeta.
    pose proof (u24 prec Hprec) as Hu. assert (P20 : (20 <= prec)%Z) by lia.
    pose proof (near_rd emin prec P20 Hemin F HA) as RD.
    pose proof (near_mul prec P20) as MU.
    pose proof (near_exact prec) as EX. pose proof (near_sub prec) as SU. pose proof (near_add prec) as AD.
    pose proof (near_le prec) as LE. pose proof (rd_err emin prec P20 Hemin F HA) as RE.
    pose proof (Rabs_le_inv _ _ Hmid) as Bm.
    pose proof (logistic_bounds X) as Hs. set (s := logistic X) in *.
    assert (N6 : near (rd (p - lo)) (h * s) (148/10 * h)).
    { pose proof (SU _ _ _ _ _ _ (EX p) (EX lo)) as Q. replace (p - lo) with (h * s) in Q at 2 by (unfold p; ring).
      eapply LE; [apply (RD _ _ _ h Q)|]; try lra. rewrite Rabs_pos_eq; nra. }
    set (z := rd (p - lo)) in *.
    destruct (log_error z h X ltac:(lra) HX N6) as (E2 & G4 & Ge).
    fold s in E2, G4, Ge. assert (Ps : 0 < s * (1 - s)) by nra.
    assert (EG : / (s * (1 - s)) * (s * (1 - s)) = 1) by (field; lra).
    set (G := / (s * (1 - s))) in *. set (a := rd (rd (h / z) - 1)) in *.
    set (D := X / k).
    assert (Ik : 0 <= / k <= 1002 / 100).
    { split; [left; apply Rinv_0_lt_compat; lra|].
      replace (1002 / 100) with (/ (100 / 1002)) by (field; lra). apply Rinv_le_contravar; lra. }
    assert (BD : Rabs D <= 712 / 10).
    { unfold D, Rdiv. rewrite Rabs_mult, (Rabs_right (/ k)) by lra.
      apply Rle_trans with (71 / 10 * (1002 / 100)); [|lra]. apply Rmult_le_compat; auto using Rabs_pos; lra. }
    assert (kD : k * D = X) by (unfold D; field; lra).
    assert (E3 : Rabs (lib_log F a / k - - D) <= 241 * (G * u)).
    { replace (lib_log F a / k - - D) with ((lib_log F a - - X) * / k) by (unfold D; field; lra).
      rewrite Rabs_mult, (Rabs_right (/ k)) by lra.
      apply Rle_trans with (24 * (G * u) * (1002 / 100)); [|lra].
      apply Rmult_le_compat; auto using Rabs_pos; lra. }
    assert (B4 : Rabs (lib_log F a / k) <= 713 / 10).
    { replace (lib_log F a / k) with ((lib_log F a / k - - D) + - D) by ring.
      eapply Rle_trans; [apply Rabs_triang|]. rewrite (Rabs_Ropp D). lra. }
    assert (E4 : Rabs (rd (lib_log F a / k) - - D) <= 259 * (G * u)).
    { replace (rd (lib_log F a / k) - - D) with ((rd (lib_log F a / k) - lib_log F a / k) + (lib_log F a / k - - D)) by ring.
      eapply Rle_trans; [apply Rabs_triang|]. pose proof (RE _ (713/10) B4 ltac:(lra)). nra. }
    set (w := rd (lib_log F a / k)) in *.
    assert (E5 : Rabs (mid - w - (mid + D)) <= 259 * (G * u)).
    { replace (mid - w - (mid + D)) with (- (w - - D)) by ring. now rewrite Rabs_Ropp. }
    assert (B5 : Rabs (mid - w) <= 823 / 10).
    { replace (mid - w) with ((mid - w - (mid + D)) + mid + D) by ring.
      eapply Rle_trans; [apply Rabs_triang|]. pose proof (Rabs_triang (mid - w - (mid + D)) mid). lra. }
    assert (E6 : Rabs (rd (mid - w) - (mid + D)) <= 280 * (G * u)).
    { replace (rd (mid - w) - (mid + D)) with ((rd (mid - w) - (mid - w)) + (mid - w - (mid + D))) by ring.
      eapply Rle_trans; [apply Rabs_triang|]. pose proof (RE _ (823/10) B5 ltac:(lra)). nra. }
    set (x := rd (mid - w)) in *.
    assert (E7 : Rabs (x - mid - D) <= 280 * (G * u)) by (replace (x - mid - D) with (x - (mid + D)) by ring; exact E6).
    assert (B7 : Rabs (x - mid) <= 713 / 10).
    { replace (x - mid) with ((x - mid - D) + D) by ring. eapply Rle_trans; [apply Rabs_triang|]. lra. }
    assert (E8 : Rabs (rd (x - mid) - D) <= 298 * (G * u)).
    { replace (rd (x - mid) - D) with ((rd (x - mid) - (x - mid)) + (x - mid - D)) by ring.
      eapply Rle_trans; [apply Rabs_triang|]. pose proof (RE _ (713/10) B7 ltac:(lra)). nra. }
    assert (E9 : Rabs (k * rd (x - mid) - X) <= 299 / 10 * (G * u)).
    { rewrite <- kD. replace (k * rd (x - mid) - k * D) with (k * (rd (x - mid) - D)) by ring.
      rewrite Rabs_mult, (Rabs_right k) by lra.
      apply Rle_trans with (1001 / 10000 * (298 * (G * u))); [|lra].
      apply Rmult_le_compat; auto using Rabs_pos; lra. }
    assert (B9 : Rabs (k * rd (x - mid)) <= 72 / 10).
    { replace (k * rd (x - mid)) with ((k * rd (x - mid) - X) + X) by ring. eapply Rle_trans; [apply Rabs_triang|]. lra. }
    assert (E10 : Rabs (rd (k * rd (x - mid)) - X) <= 318 / 10 * (G * u)).
    { replace (rd (k * rd (x - mid)) - X) with ((rd (k * rd (x - mid)) - k * rd (x - mid)) + (k * rd (x - mid) - X)) by ring.
      eapply Rle_trans; [apply Rabs_triang|]. pose proof (RE _ (72/10) B9 ltac:(lra)). nra. }
    set (Y := rd (k * rd (x - mid))) in *.
    unfold Proofs_Float4.near.
      replace (lib_logistic F Y - s) with ((lib_logistic F Y - logistic Y) + (logistic Y - s)) by ring.
      eapply Rle_trans; [apply Rabs_triang|].
      pose proof (fa_logistic _ _ _ HA Y) as L.
      pose proof (logistic_shift X (Y - X) ltac:(lra)) as L2. replace (X + (Y - X)) with Y in L2 by ring. fold s in L2.
      assert (T : Rabs (Y - X) * (s * (1 - s)) <= 318 / 10 * u).
      { apply Rle_trans with (318 / 10 * (G * u) * (s * (1 - s))); [apply Rmult_le_compat_r; lra|].
        right. replace (318 / 10 * (G * u) * (s * (1 - s))) with (318 / 10 * u * (G * (s * (1 - s)))) by ring. rewrite EG. ring. }
      lra.
  Qed.

  Lemma trip_in_error lo h mid k X : 15 / 10 <= h <= 20 -> Rabs lo <= 2 * h -> Rabs (lo + h) <= 21/10 * h ->
    999 / 10000 <= k <= 1001 / 10000 -> Rabs mid <= 11 -> Rabs X <= 71 / 10 ->
    let p := lo + h * logistic X in
    Rabs (trip_in lo h mid k p - p) <= 43 * u * h.
  Proof.
    intros Hh Hlo Hhi Hk Hmid HX p.
    pose proof (u24 prec Hprec) as Hu. assert (P20 : (20 <= prec)%Z) by lia.
    pose proof (near_rd emin prec P20 Hemin F HA) as RD.
    pose proof (near_mul prec P20) as MU.
    pose proof (near_exact prec) as EX. pose proof (near_add prec) as AD.
    pose proof (near_le prec) as LE.
    pose proof (trip_in_logistic lo h mid k X Hh Hk Hmid HX) as N3. cbv zeta in N3. fold p in N3.
    unfold trip_in. cbv zeta. pose proof (logistic_bounds X) as Hs. set (s := logistic X) in *.
    match type of N3 with Proofs_Float4.near _ ?x _ _ => set (S := x) in * end.
    assert (N4 : near (rd (h * S)) (h * s) (401/10 * h)).
    { eapply LE; [apply (RD _ _ _ h (MU _ _ _ _ _ _ h 1 (EX h) N3 ltac:(rewrite Rabs_pos_eq; lra)
        ltac:(rewrite Rabs_pos_eq; lra) ltac:(lra) ltac:(lra)))|]; try lra.
      rewrite Rabs_pos_eq; nra. }
    assert (By : Rabs (lo + h * s) <= 21/10 * h).
    { apply Rabs_le_inv in Hlo. apply Rabs_le_inv in Hhi. apply Rabs_le. nra. }
    assert (N5 : near (rd (lo + rd (h * S))) (lo + h * s) (43 * h)).
    { eapply LE; [apply (RD _ _ _ (21/10 * h) (AD _ _ _ _ _ _ (EX lo) N4) By)|]; lra. }
    unfold Proofs_Float4.near in N5. fold p in N5. lra.
  Qed.
End Trip.

(** The pairs of functions as they are in the kernels. *)
Section Pair.
  Variables emin prec : Z.
  Hypothesis Hprec : (24 <= prec)%Z.
  Hypothesis Hemin : (emin <= - prec - 100)%Z.
  Variable F : arith.
  Hypothesis HA : faithful emin prec F.
  Hypothesis HLn : forall x, 0 < x -> Rabs (lib_log F x - ln x) <= 4 * bpow radix2 (- prec) * Rmax 1 (Rabs (ln x)).

  Local Notation u := (bpow radix2 (- prec)).
  Local Notation rd := (rnd F).
  Local Notation sig := (@sigmoid R (Num_fl F)).
  Local Notation isig := (@inverse_sigmoid R (Num_fl F)).

  Lemma trip_is lo hi mid k x : isig (sig x mid k lo hi) mid k lo hi = trip F lo (rd (hi - lo)) mid k x.
  Proof.
    unfold inverse_sigmoid, trip. cbn [nconst Num_fl]. now rewrite (oa_one F (fa_ordered _ _ _ HA)).
  Qed.

  Lemma trip_in_is lo hi mid k p : sig (isig p mid k lo hi) mid k lo hi = trip_in F lo (rd (hi - lo)) mid k p.
  Proof.
    unfold inverse_sigmoid, trip_in. cbn [nconst Num_fl]. now rewrite (oa_one F (fa_ordered _ _ _ HA)).
  Qed.

  Lemma k_near : Rabs (rd (1 / 10) - / 10) <= u.
  Proof.
    pose proof (rd_err emin prec ltac:(lia) Hemin F HA (1 / 10) 1 ltac:(rewrite Rabs_pos_eq; lra) ltac:(lra)).
    replace (/ 10) with (1 / 10) by lra. lra.
  Qed.

  Lemma width_exp X : / (logistic X * (1 - logistic X)) <= 4 * exp (Rabs X).
  Proof.
    assert (E : / (logistic X * (1 - logistic X)) = 2 + exp X + exp (- X)).
    { unfold logistic. rewrite exp_Ropp. pose proof (exp_pos X). field. split; lra. }
    rewrite E. pose proof (exp_ineq1_le (Rabs X)). pose proof (Rabs_pos X).
    assert (M : forall y, y <= Rabs X -> exp y <= exp (Rabs X)).
    { intros y Hy. destruct (Rle_lt_or_eq_dec _ _ Hy) as [L|EQ]; [left; now apply exp_increasing|rewrite EQ; lra]. }
    pose proof (M X (Rle_abs X)). pose proof (M (- X) ltac:(rewrite <- Rabs_Ropp; apply Rle_abs)). lra.
  Qed.

  (** One parameter, with constants close to those of the source. *)
  Lemma out_error lo hi mid m0 x : 15 / 10 <= rd (hi - lo) <= 20 -> Rabs lo <= 2 * rd (hi - lo) ->
    Rabs (lo + rd (hi - lo)) <= 21 / 10 * rd (hi - lo) -> Rabs (mid - m0) <= 100 * u -> Rabs m0 <= 10.5 ->
    Rabs x <= 60 ->
    Rabs (isig (sig x mid (rd (1 / 10)) lo hi) mid (rd (1 / 10)) lo hi - x) <=
      1110 * exp (Rabs (x - m0) / 10) * u.
  Proof.
    intros Hh Hlo Hhi Hm Hm0 Hx. rewrite trip_is. pose proof (u24 prec Hprec) as Hu. pose proof k_near as Hk.
    set (k := rd (1 / 10)) in *. apply Rabs_le_inv in Hk.
    assert (Bm : Rabs mid <= 11).
    { replace mid with ((mid - m0) + m0) by ring. eapply Rle_trans; [apply Rabs_triang|]. lra. }
    assert (BX : Rabs (x - mid) <= Rabs (x - m0) + 100 * u).
    { replace (x - mid) with ((x - m0) + - (mid - m0)) by ring. eapply Rle_trans; [apply Rabs_triang|].
      rewrite Rabs_Ropp. lra. }
    assert (B0 : Rabs (x - m0) <= 70.5).
    { unfold Rminus. eapply Rle_trans; [apply Rabs_triang|]. rewrite Rabs_Ropp. lra. }
    assert (BkX : Rabs (k * (x - mid)) <= Rabs (x - m0) / 10 + / 2000).
    { rewrite Rabs_mult, (Rabs_right k) by lra.
      apply Rle_trans with ((/ 10 + u) * (Rabs (x - m0) + 100 * u)).
      - apply Rmult_le_compat; auto using Rabs_pos; lra.
      - pose proof (Rabs_pos (x - m0)). nra. }
    pose proof (trip_error emin prec Hprec Hemin F HA HLn lo (rd (hi - lo)) mid k x Hh Hlo Hhi ltac:(lra) Hx Bm ltac:(lra)) as E.
    cbv zeta in E. eapply Rle_trans; [exact E|].
    pose proof (width_exp (k * (x - mid))) as W.
    assert (Wx : exp (Rabs (k * (x - mid))) <= exp (Rabs (x - m0) / 10) * (1 + / 1000)).
    { apply Rle_trans with (exp (Rabs (x - m0) / 10 + / 2000)).
      - destruct (Rle_lt_or_eq_dec _ _ BkX) as [L|EQ]; [left; now apply exp_increasing|rewrite EQ; lra].
      - rewrite exp_plus. apply Rmult_le_compat_l; [left; apply exp_pos|].
        pose proof (exp_near (/ 2000) ltac:(rewrite Rabs_pos_eq; lra)) as Q. apply Rabs_le_inv in Q.
        rewrite (Rabs_pos_eq (/ 2000)) in Q by lra. lra. }
    pose proof (exp_pos (Rabs (x - m0) / 10)) as PE. set (e := exp (Rabs (x - m0) / 10)) in *.
    apply Rle_trans with (276 * u * (4 * (e * (1 + / 1000)))).
    - apply Rmult_le_compat_l; lra.
    - nra.
  Qed.

  Lemma in_error lo hi mid X : 15 / 10 <= rd (hi - lo) <= 20 -> Rabs lo <= 2 * rd (hi - lo) ->
    Rabs (lo + rd (hi - lo)) <= 21 / 10 * rd (hi - lo) -> Rabs mid <= 11 -> Rabs X <= 71 / 10 ->
    let p := lo + rd (hi - lo) * logistic X in
    Rabs (sig (isig p mid (rd (1 / 10)) lo hi) mid (rd (1 / 10)) lo hi - p) <= 43 * u * rd (hi - lo).
  Proof.
    intros Hh Hlo Hhi Hm HX p. rewrite trip_in_is. pose proof (u24 prec Hprec) as Hu. pose proof k_near as Hk.
    apply Rabs_le_inv in Hk.
    apply (trip_in_error emin prec Hprec Hemin F HA HLn); auto. lra.
  Qed.

  Lemma mid_near lo hi : Rabs lo <= 20 -> Rabs hi <= 20 -> Rabs (lo + hi) <= 21 ->
    near prec (rd (rd (1 / 2) * rd (rd lo + rd hi))) ((lo + hi) / 2) 100.
  Proof.
    intros Hl Hh Hs. pose proof (u24 prec Hprec) as Hu. assert (P20 : (20 <= prec)%Z) by lia.
    pose proof (near_rd emin prec P20 Hemin F HA) as RD.
    pose proof (near_mul prec P20) as MU. pose proof (near_exact prec) as EX. pose proof (near_add prec) as AD.
    pose proof (near_le prec) as LE.
    pose proof (RD _ _ _ 20 (EX lo) Hl ltac:(lra) ltac:(lra)) as N1.
    pose proof (RD _ _ _ 20 (EX hi) Hh ltac:(lra) ltac:(lra)) as N2.
    pose proof (RD _ _ _ 21 (AD _ _ _ _ _ _ N1 N2) Hs ltac:(lra) ltac:(lra)) as N3.
    pose proof (RD _ _ _ 1 (EX (1 / 2)) ltac:(rewrite Rabs_pos_eq; lra) ltac:(lra) ltac:(lra)) as N4.
    pose proof (MU _ _ _ _ _ _ (1 / 2) 21 N4 N3 ltac:(rewrite Rabs_pos_eq; lra) Hs ltac:(lra) ltac:(lra)) as N5.
    replace ((lo + hi) / 2) with (1 / 2 * (lo + hi)) by lra.
    eapply LE; [apply (RD _ _ _ (21 / 2) N5)|]; try lra.
    rewrite Rabs_mult, (Rabs_pos_eq (1 / 2)) by lra. lra.
  Qed.

  Lemma const_near c : Rabs c <= 20 -> Rabs (rd c - c) <= 20 * u.
  Proof. intros H. pose proof (rd_err emin prec ltac:(lia) Hemin F HA c 20 H ltac:(lra)). lra. Qed.

  Lemma height_near lo hi l : Rabs lo <= 20 -> Rabs hi <= 20 -> Rabs (hi - lo) <= 1996 / 100 ->
    Rabs (l - lo) <= 300 * u ->
    near prec (rd (rd hi - l)) (hi - lo) 341.
  Proof.
    intros Hl Hh Hs HL. pose proof (u24 prec Hprec) as Hu. assert (P20 : (20 <= prec)%Z) by lia.
    pose proof (near_rd emin prec P20 Hemin F HA) as RD. pose proof (near_exact prec) as EX. pose proof (near_sub prec) as SU.
    pose proof (near_le prec) as LE.
    pose proof (RD _ _ _ 20 (EX hi) Hh ltac:(lra) ltac:(lra)) as N2.
    assert (N1 : near prec l lo 300) by (unfold near; lra).
    eapply LE; [apply (RD _ _ _ 20 (SU _ _ _ _ _ _ N2 N1))|]; lra.
  Qed.

  (** The value of a machine sigmoid lies in the interval up to rounding. *)
  Lemma sig_range lo hi l mid x : Rabs lo <= 20 -> Rabs hi <= 20 -> 0 <= hi - lo <= 1996 / 100 ->
    Rabs (l - lo) <= 20 * u -> lo - 500 * u <= sig x mid (rd (1 / 10)) l (rd hi) <= hi + 500 * u.
  Proof.
    intros Hl Hh Hs HL. pose proof (u24 prec Hprec) as Hu.
    unfold sigmoid. cbn [nadd nsub nmul nlogistic Num_fl].
    set (S := lib_logistic F _). assert (HS : 0 <= S <= 1) by apply (oa_logistic F (fa_ordered _ _ _ HA)).
    pose proof (height_near lo hi l Hl Hh ltac:(rewrite Rabs_pos_eq; lra) ltac:(lra)) as N. unfold near in N.
    set (h := rd (rd hi - l)) in *. apply Rabs_le_inv in N. apply Rabs_le_inv in HL.
    apply Rabs_le_inv in Hl. apply Rabs_le_inv in Hh.
    pose proof (rd_err emin prec ltac:(lia) Hemin F HA (h * S) 21 ltac:(apply Rabs_le; nra) ltac:(lra)) as R1.
    set (w := rd (h * S)) in *. apply Rabs_le_inv in R1.
    pose proof (rd_err emin prec ltac:(lia) Hemin F HA (l + w) 43 ltac:(apply Rabs_le; nra) ltac:(lra)) as R2.
    apply Rabs_le_inv in R2. nra.
  Qed.
End Pair.

(** The five parameters. *)
Ltac size :=
  match goal with
  | |- Rabs ?c <= _ => solve [assumption | rewrite (Rabs_pos_eq c) by lra; lra | rewrite (Rabs_left c) by lra; lra]
  | _ => lra
  end.

Section All.
  Variables emin prec : Z.
  Hypothesis Hprec : (24 <= prec)%Z.
  Hypothesis Hemin : (emin <= - prec - 100)%Z.
  Variable F : arith.
  Hypothesis HA : faithful emin prec F.
  Hypothesis HLn : forall x, 0 < x -> Rabs (lib_log F x - ln x) <= 4 * bpow radix2 (- prec) * Rmax 1 (Rabs (ln x)).

  Local Notation u := (bpow radix2 (- prec)).
  Local Notation rd := (rnd F).
  Local Notation near := (near prec).
  Local Notation sig := (@sigmoid R (Num_fl F)).
  Local Notation isig := (@inverse_sigmoid R (Num_fl F)).

  (** The constants of one interval. *)
  Lemma interval lo hi l : Rabs lo <= 20 -> Rabs hi <= 20 -> 16 / 10 <= hi - lo <= 1996 / 100 ->
    Rabs lo <= 19 / 10 * (hi - lo) -> Rabs hi <= 201 / 100 * (hi - lo) -> Rabs (l - lo) <= 300 * u ->
    15 / 10 <= rd (rd hi - l) <= 20 /\ Rabs l <= 2 * rd (rd hi - l) /\
    Rabs (l + rd (rd hi - l)) <= 21 / 10 * rd (rd hi - l) /\ Rabs (rd (rd hi - l) - (hi - lo)) <= 341 * u.
  Proof.
    intros H1 H2 H3 H4 H5 HL. pose proof (u24 prec Hprec) as Hu.
    pose proof (height_near emin prec Hprec Hemin F HA lo hi l H1 H2 ltac:(rewrite Rabs_pos_eq; lra) HL) as N.
    unfold Proofs_Float4.near in N. set (h := rd (rd hi - l)) in *. pose proof (Rabs_le_inv _ _ N) as B.
    apply Rabs_le_inv in HL.
    assert (Rabs l <= Rabs lo + 300 * u).
    { replace l with (lo + (l - lo)) by ring. eapply Rle_trans; [apply Rabs_triang|]. apply Rplus_le_compat_l, Rabs_le; lra. }
    assert (Rabs (l + h) <= Rabs hi + 641 * u).
    { replace (l + h) with (hi + ((l - lo) + (h - (hi - lo)))) by ring. eapply Rle_trans; [apply Rabs_triang|].
      apply Rplus_le_compat_l, Rabs_le; lra. }
    split; [lra|]. split; [lra|]. split; [lra|exact N].
  Qed.

  Lemma one_out lo hi x : Rabs lo <= 20 -> Rabs hi <= 20 -> 16 / 10 <= hi - lo <= 1996 / 100 ->
    Rabs lo <= 19 / 10 * (hi - lo) -> Rabs hi <= 201 / 100 * (hi - lo) -> Rabs (lo + hi) <= 21 -> Rabs x <= 60 ->
    Rabs (@get_unbounded_diffmah_param R (Num_fl F) (@get_bounded_diffmah_param R (Num_fl F) x (rd lo, rd hi)) (rd lo, rd hi) - x)
      <= 1110 * exp (Rabs (x - (lo + hi) / 2) / 10) * u.
  Proof.
    intros H1 H2 H3 H4 H5 H6 Hx. pose proof (u24 prec Hprec) as Hu.
    pose proof (const_near emin prec Hprec Hemin F HA lo H1) as HL.
    destruct (interval lo hi (rd lo) H1 H2 H3 H4 H5 ltac:(lra)) as (I1 & I2 & I3 & _).
    pose proof (mid_near emin prec Hprec Hemin F HA lo hi H1 H2 H6) as HM. unfold Proofs_Float4.near in HM.
    unfold get_unbounded_diffmah_param, get_bounded_diffmah_param, BOUNDING_K. cbn [nconst nmul nadd Num_fl].
    apply (out_error emin prec Hprec Hemin F HA HLn); auto.
    unfold Rdiv. rewrite Rabs_mult, (Rabs_pos_eq (/ 2)) by lra. lra.
  Qed.

  Lemma late_range ul : 1 / 10 - 500 * u <= @get_bounded_diffmah_param R (Num_fl F) ul (rd (1 / 10), rd 5) <= 5 + 500 * u.
  Proof.
    apply (sig_range emin prec Hprec Hemin F HA (1 / 10) 5 (rd (1 / 10)) _ ul ltac:(rewrite Rabs_pos_eq; lra)
      ltac:(rewrite Rabs_pos_eq; lra) ltac:(lra)).
    apply (const_near emin prec Hprec Hemin F HA). rewrite Rabs_pos_eq; lra.
  Qed.

  Lemma early_out l x : 1 / 10 - 500 * u <= l <= 5 + 500 * u -> Rabs x <= 60 ->
    Rabs (isig (sig x (rd 0) (rd (1 / 10)) l (rd 10)) (rd 0) (rd (1 / 10)) l (rd 10) - x)
      <= 1110 * exp (Rabs x / 10) * u.
  Proof.
    intros Hl Hx. pose proof (u24 prec Hprec) as Hu.
    assert (Z0 : Rabs (l - l) <= 300 * u) by (replace (l - l) with 0 by ring; rewrite Rabs_R0; lra).
    destruct (interval l 10 l ltac:(rewrite Rabs_pos_eq; lra) ltac:(rewrite Rabs_pos_eq; lra) ltac:(lra)
      ltac:(rewrite Rabs_pos_eq; lra) ltac:(rewrite Rabs_pos_eq; lra) Z0) as (I1 & I2 & I3 & _).
    assert (Z : rd 0 = 0) by apply (oa_zero F (fa_ordered _ _ _ HA)). rewrite Z.
    replace (Rabs x) with (Rabs (x - 0)) by (f_equal; ring).
    apply (out_error emin prec Hprec Hemin F HA HLn); auto; rewrite ?Rminus_0_r, ?Rabs_R0; auto; lra.
  Qed.

  Lemma all_out v : Rabs (u_logm0 v) <= 60 -> Rabs (u_logtc v) <= 60 -> Rabs (u_early_index v) <= 60 ->
    Rabs (u_late_index v) <= 60 -> Rabs (u_t_peak v) <= 60 ->
    let w := @get_unbounded_mah_params R (Num_fl F) (@get_bounded_mah_params R (Num_fl F) v) in
    Rabs (u_logm0 w - u_logm0 v) <= 1110 * exp (Rabs (u_logm0 v - 17 / 2) / 10) * u /\
    Rabs (u_logtc w - u_logtc v) <= 1110 * exp (Rabs (u_logtc v) / 10) * u /\
    Rabs (u_early_index w - u_early_index v) <= 1110 * exp (Rabs (u_early_index v) / 10) * u /\
    Rabs (u_late_index w - u_late_index v) <= 1110 * exp (Rabs (u_late_index v - 255 / 100) / 10) * u /\
    Rabs (u_t_peak w - u_t_peak v) <= 1110 * exp (Rabs (u_t_peak v - 10025 / 1000) / 10) * u.
  Proof.
    intros H1 H2 H3 H4 H5. cbv zeta.
    pose proof (one_out 0 17 (u_logm0 v)) as E1. pose proof (one_out (-1) 1 (u_logtc v)) as E2.
    pose proof (one_out (1/10) 5 (u_late_index v)) as E4. pose proof (one_out (5/100) 20 (u_t_peak v)) as E5.
    replace ((0 + 17) / 2) with (17 / 2) in E1 by lra. replace (u_logtc v - (-1 + 1) / 2) with (u_logtc v) in E2 by lra.
    replace ((1 / 10 + 5) / 2) with (255 / 100) in E4 by lra. replace ((5 / 100 + 20) / 2) with (10025 / 1000) in E5 by lra.
    split; [apply E1; size|].
    split; [apply E2; size|].
    split; [|split; [apply E4; size|apply E5; size]].
    exact (early_out _ _ (late_range (u_late_index v)) H3).
  Qed.

  (** ** Bounded, unbounded, bounded *)

  Lemma exp71 : 800 <= exp (71 / 10).
  Proof.
    pose proof (exp_ineq1_le (/ 10)) as T. set (e := exp (/ 10)) in *.
    assert (E : exp (71 / 10) = (e ^ 10) ^ 7 * e).
    { unfold e. cbn [pow]. rewrite !Rmult_1_r, <- !exp_plus. f_equal. lra. }
    rewrite E. assert (A : 11 / 10 <= e) by lra.
    assert (B : 259 / 100 <= e ^ 10).
    { apply Rle_trans with ((11 / 10) ^ 10); [lra|]. apply pow_incr. lra. }
    assert (C : 780 <= (e ^ 10) ^ 7).
    { apply Rle_trans with ((259 / 100) ^ 7); [lra|]. apply pow_incr. lra. }
    nra.
  Qed.

  (** The logit of a fraction away from 0 and 1. *)
  Lemma logit_range s : / 600 <= s <= 1 - / 600 -> exists X, Rabs X <= 71 / 10 /\ logistic X = s.
  Proof.
    intros H. exists (ln (s / (1 - s))). assert (P : 0 < s / (1 - s)) by (apply Rmult_lt_0_compat; [lra|apply Rinv_0_lt_compat; lra]).
    split.
    - pose proof exp71 as E. assert (L : forall y, 0 < y -> y <= 800 -> ln y <= 71 / 10).
      { intros y Hy Hy'. rewrite <- (ln_exp (71 / 10)). destruct (Rle_lt_or_eq_dec y (exp (71 / 10)) ltac:(lra)) as [Lt|EQ];
        [left; now apply ln_increasing|rewrite EQ; lra]. }
      apply Rabs_le. split.
      + assert (Q : ln ((1 - s) / s) <= 71 / 10).
        { apply L; [apply Rmult_lt_0_compat; [lra|apply Rinv_0_lt_compat; lra]|].
          apply Rmult_le_reg_r with s; [lra|]. unfold Rdiv. rewrite Rmult_assoc, Rinv_l by lra. lra. }
        replace ((1 - s) / s) with (/ (s / (1 - s))) in Q by (field; lra). rewrite ln_Rinv in Q by exact P. lra.
      + apply L; [exact P|]. apply Rmult_le_reg_r with (1 - s); [lra|]. unfold Rdiv. rewrite Rmult_assoc, Rinv_l by lra. lra.
    - unfold logistic. rewrite exp_Ropp, exp_ln by exact P. field. lra.
  Qed.

  Lemma fraction lo h lo0 hi0 p : 15 / 10 <= h <= 20 -> Rabs (lo - lo0) <= 300 * u -> Rabs (h - (hi0 - lo0)) <= 341 * u ->
    lo0 + (hi0 - lo0) / 500 <= p <= hi0 - (hi0 - lo0) / 500 ->
    exists X, Rabs X <= 71 / 10 /\ p = lo + h * logistic X.
  Proof.
    intros Hh Hl Hd Hp. pose proof (u24 prec Hprec) as Hu. apply Rabs_le_inv in Hl. apply Rabs_le_inv in Hd.
    destruct (logit_range ((p - lo) / h)) as (X & HX & E).
    - split; (apply Rmult_le_reg_r with h; [lra|]); unfold Rdiv; rewrite Rmult_assoc, Rinv_l by lra; lra.
    - exists X. split; [exact HX|]. rewrite E. field. lra.
  Qed.

  Lemma one_in lo hi p : Rabs lo <= 20 -> Rabs hi <= 20 -> 16 / 10 <= hi - lo <= 1996 / 100 ->
    Rabs lo <= 19 / 10 * (hi - lo) -> Rabs hi <= 201 / 100 * (hi - lo) -> Rabs (lo + hi) <= 21 ->
    lo + (hi - lo) / 500 <= p <= hi - (hi - lo) / 500 ->
    Rabs (@get_bounded_diffmah_param R (Num_fl F) (@get_unbounded_diffmah_param R (Num_fl F) p (rd lo, rd hi)) (rd lo, rd hi) - p)
      <= 44 * (hi - lo) * u.
  Proof.
    intros H1 H2 H3 H4 H5 H6 Hp. pose proof (u24 prec Hprec) as Hu.
    pose proof (const_near emin prec Hprec Hemin F HA lo H1) as HL.
    destruct (interval lo hi (rd lo) H1 H2 H3 H4 H5 ltac:(lra)) as (I1 & I2 & I3 & I4).
    pose proof (mid_near emin prec Hprec Hemin F HA lo hi H1 H2 H6) as HM. unfold Proofs_Float4.near in HM.
    destruct (fraction (rd lo) (rd (rd hi - rd lo)) lo hi p I1 ltac:(lra) I4 Hp) as (X & HX & ->).
    unfold get_unbounded_diffmah_param, get_bounded_diffmah_param, BOUNDING_K. cbn [nconst nmul nadd Num_fl].
    set (m := rd (rd (1 / 2) * rd (rd lo + rd hi))) in *.
    assert (Bm : Rabs m <= 11).
    { replace m with ((m - (lo + hi) / 2) + (lo + hi) / 2) by ring. eapply Rle_trans; [apply Rabs_triang|].
      unfold Rdiv at 2. rewrite Rabs_mult, (Rabs_pos_eq (/ 2)) by lra. lra. }
    eapply Rle_trans; [apply (in_error emin prec Hprec Hemin F HA HLn); auto|].
    apply Rabs_le_inv in I4. nra.
  Qed.

  (** The early index, whose lower bound is the late index, recomputed on the way back. *)
  Lemma early_in l l2 e : 1 / 10 <= l <= 5 -> Rabs (l2 - l) <= 216 * u ->
    l + (10 - l) / 500 <= e <= 10 - (10 - l) / 500 ->
    Rabs (sig (isig e (rd 0) (rd (1 / 10)) l (rd 10)) (rd 0) (rd (1 / 10)) l2 (rd 10) - e) <= 1300 * u.
  Proof.
    intros Hl H2 He. pose proof (u24 prec Hprec) as Hu.
    assert (Z0 : Rabs (l - l) <= 300 * u) by (replace (l - l) with 0 by ring; rewrite Rabs_R0; lra).
    destruct (interval l 10 l ltac:(rewrite Rabs_pos_eq; lra) ltac:(rewrite Rabs_pos_eq; lra) ltac:(lra)
      ltac:(rewrite Rabs_pos_eq; lra) ltac:(rewrite Rabs_pos_eq; lra) Z0) as (I1 & I2 & I3 & I4).
    destruct (fraction l (rd (rd 10 - l)) l 10 e I1 Z0 I4 He) as (X & HX & E).
    pose proof (k_near emin prec Hprec Hemin F HA) as Hk. apply Rabs_le_inv in Hk.
    assert (Z : rd 0 = 0) by apply (oa_zero F (fa_ordered _ _ _ HA)).
    pose proof (trip_in_logistic emin prec Hprec Hemin F HA HLn l (rd (rd 10 - l)) (rd 0) (rd (1 / 10)) X I1 ltac:(lra)
      ltac:(rewrite Z, Rabs_R0; lra) HX) as N3. cbv zeta in N3. rewrite <- E in N3.
    unfold sigmoid, inverse_sigmoid. cbn [nadd nsub nmul ndiv nconst nlog nlogistic Num_fl].
    rewrite (oa_one F (fa_ordered _ _ _ HA)).
    match type of N3 with Proofs_Float4.near _ ?x _ _ => set (S := x) in * end.
    assert (P20 : (20 <= prec)%Z) by lia.
    pose proof (near_rd emin prec P20 Hemin F HA) as RD. pose proof (near_mul prec P20) as MU.
    pose proof (near_add prec) as AD. pose proof (near_le prec) as LE.
    set (h := rd (rd 10 - l)) in *.
    pose proof (height_near emin prec Hprec Hemin F HA l 10 l2 ltac:(rewrite Rabs_pos_eq; lra) ltac:(rewrite Rabs_pos_eq; lra)
      ltac:(rewrite Rabs_pos_eq; lra) ltac:(lra)) as N1.
    set (h2 := rd (rd 10 - l2)) in *.
    assert (N2 : near h2 h 682).
    { unfold Proofs_Float4.near in *. replace (h2 - h) with ((h2 - (10 - l)) + - (h - (10 - l))) by ring.
      eapply Rle_trans; [apply Rabs_triang|]. rewrite Rabs_Ropp. lra. }
    pose proof (logistic_bounds X) as Hs. set (s := logistic X) in *. apply Rabs_le_inv in I4.
    pose proof (MU _ _ _ _ _ _ 10 1 N2 N3 ltac:(rewrite Rabs_pos_eq; lra) ltac:(rewrite Rabs_pos_eq; lra) ltac:(lra) ltac:(lra)) as N4.
    pose proof (RD _ _ _ 10 N4 ltac:(rewrite Rabs_pos_eq; nra) ltac:(lra) ltac:(lra)) as N5.
    assert (N0 : near l2 l 216) by exact H2.
    pose proof (RD _ _ _ 11 (AD _ _ _ _ _ _ N0 N5) ltac:(rewrite <- E; rewrite Rabs_pos_eq; lra) ltac:(lra) ltac:(lra)) as N6.
    rewrite <- E in N6. unfold Proofs_Float4.near in N6. lra.
  Qed.

  Lemma all_in p :
    17 / 500 <= logm0 p <= 17 - 17 / 500 -> -1 + 2 / 500 <= logtc p <= 1 - 2 / 500 ->
    1 / 10 + (49 / 10) / 500 <= late_index p <= 5 - (49 / 10) / 500 ->
    late_index p + (10 - late_index p) / 500 <= early_index p <= 10 - (10 - late_index p) / 500 ->
    5 / 100 + (1995 / 100) / 500 <= t_peak p <= 20 - (1995 / 100) / 500 ->
    let q := @get_bounded_mah_params R (Num_fl F) (@get_unbounded_mah_params R (Num_fl F) p) in
    Rabs (logm0 q - logm0 p) <= 748 * u /\ Rabs (logtc q - logtc p) <= 88 * u /\
    Rabs (early_index q - early_index p) <= 1300 * u /\ Rabs (late_index q - late_index p) <= 216 * u /\
    Rabs (t_peak q - t_peak p) <= 878 * u.
  Proof.
    intros H1 H2 H3 H4 H5. cbv zeta. pose proof (u24 prec Hprec) as Hu.
    pose proof (one_in 0 17 (logm0 p)) as E1. pose proof (one_in (-1) 1 (logtc p)) as E2.
    pose proof (one_in (1/10) 5 (late_index p)) as E3. pose proof (one_in (5/100) 20 (t_peak p)) as E5.
    split; [eapply Rle_trans; [apply E1; size|lra]|].
    split.
    { eapply Rle_trans; [apply E2; size|lra]. }
    assert (L : Rabs (@get_bounded_diffmah_param R (Num_fl F)
      (@get_unbounded_diffmah_param R (Num_fl F) (late_index p) (rd (1 / 10), rd 5)) (rd (1 / 10), rd 5) - late_index p) <= 216 * u).
    { eapply Rle_trans; [apply E3; size|lra]. }
    split; [|split; [exact L|eapply Rle_trans; [apply E5; size|lra]]].
    exact (early_in (late_index p) _ (early_index p) ltac:(lra) L H4).
  Qed.
End All.

(** A correctly rounded logarithm. *)
Lemma ieee_log emin prec x : (24 <= prec)%Z -> (emin <= - prec - 100)%Z -> 0 < x ->
  Rabs (lib_log (ieee emin prec) x - ln x) <= 4 * bpow radix2 (- prec) * Rmax 1 (Rabs (ln x)).
Proof.
  intros Hp He Hx. cbn [lib_log ieee]. pose proof (bpow_gt_0 radix2 (- prec)) as Hu.
  pose proof (rne_err emin prec (ln x) (Rmax 1 (Rabs (ln x))) ltac:(lia) ltac:(lia) (Rmax_r _ _) (Rmax_l _ _)) as H.
  pose proof (Rmax_l 1 (Rabs (ln x))). nra.
Qed.

Lemma exp_upto x : x <= 4003 / 1000 -> exp x <= 82.
Proof.
  intros H. apply Rle_trans with (exp (1 + 1 + 1 + 1 + 3 / 1000)).
  - destruct (Rle_lt_or_eq_dec x (1 + 1 + 1 + 1 + 3 / 1000) ltac:(lra)) as [L|EQ]; [left; now apply exp_increasing|rewrite EQ; lra].
  - rewrite !exp_plus. pose proof exp_le_3 as E3. pose proof (exp_pos 1) as P1.
    pose proof (exp_m1 (3 / 1000) ltac:(rewrite Rabs_pos_eq; lra)) as Q. rewrite (Rabs_pos_eq (3 / 1000)) in Q by lra.
    apply Rabs_le_inv in Q. set (e := exp 1) in *. pose proof (exp_pos (3 / 1000)).
    assert (e * e <= 9) by nra. assert (e * e * e <= 27) by nra. assert (0 <= e * e * e * e <= 81) by nra. nra.
Qed.
