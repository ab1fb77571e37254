(** Rounding of fractions, computed. *)

From Coq Require Import Reals ZArith Lra Lia List Bool.
From Flocq Require Import Core.
From Verif Require Import Model_Num Model_Float.
Local Open Scope R_scope.

(** Fractions with a positive denominator. *)
Definition frac : Type := Z * Z.
Definition fr (q : frac) : R := IZR (fst q) / IZR (snd q).
Definition fadd (p q : frac) : frac := (fst p * snd q + fst q * snd p, snd p * snd q)%Z.
Definition fsub (p q : frac) : frac := (fst p * snd q - fst q * snd p, snd p * snd q)%Z.
Definition fleb (p q : frac) : bool := (fst p * snd q <=? fst q * snd p)%Z.
Definition fpos (p : frac) : Prop := (0 < snd p)%Z.

(** Nearest integer of [n / d], ties to even. *)
Definition znear (n d : Z) : Z :=
  let q := (n / d)%Z in
  let r := (n mod d)%Z in
  match (2 * r ?= d)%Z with
  | Lt => q
  | Eq => if Z.even q then q else (q + 1)%Z
  | Gt => (q + 1)%Z
  end.

Definition flog (n d : Z) : Z :=
  let k := (Z.log2 (Z.abs n) - Z.log2 d)%Z in
  let big := if (0 <=? k)%Z then (d * 2 ^ k <=? Z.abs n)%Z else (d <=? Z.abs n * 2 ^ (- k))%Z in
  if big then (k + 1)%Z else k.

Definition frnd (emin prec : Z) (q : frac) : frac :=
  let (n, d) := q in
  if (n =? 0)%Z then (0, 1)%Z
  else
    let e := Z.max (flog n d - prec) emin in
    if (0 <=? e)%Z then (znear n (d * 2 ^ e) * 2 ^ e, 1)%Z
    else (znear (n * 2 ^ (- e)) d, 2 ^ (- e))%Z.

Lemma fr_add : forall p q, fpos p -> fpos q -> fr (fadd p q) = fr p + fr q.
Proof.
  intros [a b] [c d] H1 H2. unfold fpos, fr, fadd in *. cbn [fst snd] in *.
  rewrite plus_IZR, !mult_IZR. apply IZR_lt in H1. apply IZR_lt in H2. field. lra.
Qed.

Lemma fr_sub : forall p q, fpos p -> fpos q -> fr (fsub p q) = fr p - fr q.
Proof.
  intros [a b] [c d] H1 H2. unfold fpos, fr, fsub in *. cbn [fst snd] in *.
  rewrite minus_IZR, !mult_IZR. apply IZR_lt in H1. apply IZR_lt in H2. field. lra.
Qed.

Lemma fpos_add : forall p q, fpos p -> fpos q -> fpos (fadd p q).
Proof. intros [a b] [c d] H1 H2. unfold fpos in *. cbn in *. lia. Qed.

Lemma fpos_sub : forall p q, fpos p -> fpos q -> fpos (fsub p q).
Proof. intros [a b] [c d] H1 H2. unfold fpos in *. cbn in *. lia. Qed.

Lemma fleb_le : forall p q, fpos p -> fpos q -> fleb p q = true -> fr p <= fr q.
Proof.
  intros [a b] [c d] H1 H2 H. unfold fpos, fr, fleb in *. cbn [fst snd] in *.
  apply Z.leb_le in H. apply IZR_le in H. rewrite !mult_IZR in H.
  apply IZR_lt in H1. apply IZR_lt in H2.
  apply Rmult_le_reg_r with (IZR b * IZR d); [nra|].
  replace (IZR a / IZR b * (IZR b * IZR d)) with (IZR a * IZR d) by (field; lra).
  replace (IZR c / IZR d * (IZR b * IZR d)) with (IZR c * IZR b) by (field; lra). exact H.
Qed.

Lemma fleb_gt : forall p q, fpos p -> fpos q -> fleb p q = false -> fr q < fr p.
Proof.
  intros [a b] [c d] H1 H2 H. unfold fpos, fr, fleb in *. cbn [fst snd] in *.
  apply Z.leb_gt in H. apply IZR_lt in H. rewrite !mult_IZR in H.
  apply IZR_lt in H1. apply IZR_lt in H2.
  apply Rmult_lt_reg_r with (IZR b * IZR d); [nra|].
  replace (IZR a / IZR b * (IZR b * IZR d)) with (IZR a * IZR d) by (field; lra).
  replace (IZR c / IZR d * (IZR b * IZR d)) with (IZR c * IZR b) by (field; lra). exact H.
Qed.

Lemma znear_ok : forall n d, (0 < d)%Z -> ZnearestE (IZR n / IZR d) = znear n d.
Proof.
  intros n d Hd. unfold Znearest, znear.
  assert (HD : 0 < IZR d) by now apply IZR_lt.
  rewrite Zfloor_div by lia.
  pose proof (Z.div_mod n d ltac:(lia)) as E. pose proof (Z.mod_pos_bound n d Hd) as B.
  set (q := (n / d)%Z) in *. set (r := (n mod d)%Z) in *.
  assert (X : IZR n / IZR d - IZR q = IZR r / IZR d).
  { rewrite E, plus_IZR, mult_IZR. field. lra. }
  rewrite X.
  assert (C : forall c, (2 * r ?= d)%Z = c -> Rcompare (IZR r / IZR d) (/ 2) = c).
  { intros c <-.
    replace (IZR r / IZR d) with (IZR (2 * r) * / (2 * IZR d)) by (rewrite mult_IZR; field; lra).
    replace (/ 2) with (IZR d * / (2 * IZR d)) at 1 by (field; lra).
    rewrite Rcompare_mult_r by (apply Rinv_0_lt_compat; lra).
    now rewrite Rcompare_IZR. }
  assert (Hc : (0 < r)%Z -> Zceil (IZR n / IZR d) = (q + 1)%Z).
  { intros Hr. apply Zceil_imp. replace (q + 1 - 1)%Z with q by ring.
    apply IZR_lt in Hr. destruct B as [_ B]. apply IZR_lt in B.
    assert (0 < IZR r / IZR d) by (apply Rdiv_lt_0_compat; lra).
    assert (IZR r / IZR d < 1) by (apply Rmult_lt_reg_r with (IZR d); [lra|]; unfold Rdiv; rewrite Rmult_assoc, Rinv_l; lra).
    rewrite plus_IZR. lra. }
  destruct (2 * r ?= d)%Z eqn:Ec; rewrite (C _ eq_refl).
  - apply Z.compare_eq_iff in Ec. destruct (Z.even q); cbn [negb]; [reflexivity|]. apply Hc. lia.
  - reflexivity.
  - apply Hc. apply Z.compare_gt_iff in Ec. lia.
Qed.

Lemma pow_bpow : forall k, (0 <= k)%Z -> IZR (2 ^ k) = bpow radix2 k.
Proof. intros k H. change 2%Z with (radix_val radix2). now apply IZR_Zpower. Qed.

Lemma bpow_opp_frac : forall k, (k <= 0)%Z -> bpow radix2 k = / IZR (2 ^ (- k)).
Proof. intros k H. rewrite pow_bpow by lia. rewrite <- bpow_opp. f_equal. lia. Qed.

Lemma flog_ok : forall n d, n <> 0%Z -> (0 < d)%Z -> mag_val radix2 _ (mag radix2 (IZR n / IZR d)) = flog n d.
Proof.
  intros n d Hn Hd. apply mag_unique.
  assert (HD : 0 < IZR d) by now apply IZR_lt.
  assert (HN : 0 < IZR (Z.abs n)) by (apply IZR_lt; lia).
  replace (Rabs (IZR n / IZR d)) with (IZR (Z.abs n) / IZR d).
  2:{ unfold Rdiv. rewrite Rabs_mult, abs_IZR. f_equal. symmetry. apply Rabs_pos_eq.
      left. now apply Rinv_0_lt_compat. }
  set (a := Z.abs n) in *. assert (Ha : (0 < a)%Z) by lia.
  pose proof (Z.log2_spec a Ha) as [A1 A2]. pose proof (Z.log2_spec d Hd) as [D1 D2].
  pose proof (Z.log2_nonneg a) as La. pose proof (Z.log2_nonneg d) as Ld.
  unfold flog. fold a. set (la := Z.log2 a) in *. set (ld := Z.log2 d) in *.
  rewrite Z.pow_succ_r in A2, D2 by lia.
  apply IZR_le in A1. apply IZR_lt in A2. apply IZR_le in D1. apply IZR_lt in D2.
  rewrite mult_IZR in A2, D2. rewrite !pow_bpow in * by lia.
  set (k := (la - ld)%Z) in *.
  assert (Q : forall x y, x * IZR d <= y -> x <= y / IZR d).
  { intros x y H. apply Rmult_le_reg_r with (IZR d); [lra|]. unfold Rdiv. rewrite Rmult_assoc, Rinv_l; lra. }
  assert (Q' : forall x y, y < x * IZR d -> y / IZR d < x).
  { intros x y H. apply Rmult_lt_reg_r with (IZR d); [lra|]. unfold Rdiv. rewrite Rmult_assoc, Rinv_l; lra. }
  assert (Hlo : bpow radix2 (k - 1) <= IZR a / IZR d).
  { apply Q. apply Rle_trans with (bpow radix2 la); [|exact A1].
    replace la with ((k - 1) + (1 + ld))%Z by (unfold k; lia). rewrite bpow_plus.
    apply Rmult_le_compat_l; [apply bpow_ge_0|]. rewrite bpow_plus. change (bpow radix2 1) with 2. lra. }
  assert (Hhi : IZR a / IZR d < bpow radix2 (k + 1)).
  { apply Q'. apply Rlt_le_trans with (2 * bpow radix2 la); [exact A2|].
    replace (2 * bpow radix2 la) with (bpow radix2 (k + 1) * bpow radix2 ld).
    2:{ rewrite <- bpow_plus. replace (k + 1 + ld)%Z with (1 + la)%Z by (unfold k; lia).
        rewrite bpow_plus. reflexivity. }
    apply Rmult_le_compat_l; [apply bpow_ge_0 | lra]. }
  assert (HB : forall b, (if (0 <=? k)%Z then (d * 2 ^ k <=? a)%Z else (d <=? a * 2 ^ (- k))%Z) = b ->
    if b then bpow radix2 k <= IZR a / IZR d else IZR a / IZR d < bpow radix2 k).
  { intros b <-. destruct (Z.leb_spec 0 k) as [Hk | Hk].
    - destruct (Z.leb_spec (d * 2 ^ k) a) as [H | H]; [apply IZR_le in H | apply IZR_lt in H];
        rewrite mult_IZR, pow_bpow in H by lia; [apply Q | apply Q']; lra.
    - rewrite (bpow_opp_frac k) by lia.
      assert (Hp : 0 < IZR (2 ^ (- k))) by (rewrite pow_bpow by lia; apply bpow_gt_0).
      destruct (Z.leb_spec d (a * 2 ^ (- k))) as [H | H]; [apply IZR_le in H | apply IZR_lt in H];
        rewrite mult_IZR in H; [apply Q | apply Q'];
        [apply Rmult_le_reg_l with (IZR (2 ^ (- k))) | apply Rmult_lt_reg_l with (IZR (2 ^ (- k)))];
        try lra; rewrite <- Rmult_assoc, Rinv_r by lra; lra. }
  destruct (if (0 <=? k)%Z then _ else _); specialize (HB _ eq_refl); cbn beta iota in HB.
  - replace (k + 1 - 1)%Z with k by ring. lra.
  - lra.
Qed.

Section Round.
  Variables emin prec : Z.
  Hypothesis Hprec : (0 < prec)%Z.

  Local Instance prec_gt_0_q : Prec_gt_0 prec.
  Proof. exact Hprec. Qed.

  Lemma fpos_rnd : forall q, fpos q -> fpos (frnd emin prec q).
  Proof.
    intros [n d] H. unfold fpos, frnd in *. cbn [snd] in *.
    destruct (n =? 0)%Z; cbn [snd]; [lia|].
    destruct (Z.leb_spec 0 (Z.max (flog n d - prec) emin)); cbn [snd]; [lia|].
    apply Z.pow_pos_nonneg; lia.
  Qed.

  Lemma fr_rnd : forall q, fpos q -> fr (frnd emin prec q) = rne emin prec (fr q).
  Proof.
    intros [n d] H. unfold fpos in H. cbn [snd] in H. unfold frnd.
    assert (HD : 0 < IZR d) by now apply IZR_lt.
    destruct (Z.eqb_spec n 0) as [-> | Hn].
    - unfold fr. cbn [fst snd]. unfold rne, Rdiv. rewrite !Rmult_0_l.
      symmetry. apply round_0. auto with typeclass_instances.
    - unfold rne, round, scaled_mantissa, cexp, F2R. unfold fr. cbn [fst snd Fnum Fexp].
      rewrite (flog_ok n d Hn H).
      unfold FLT_exp. set (e := Z.max (flog n d - prec) emin).
      destruct (Z.leb_spec 0 e) as [He | He]; cbn [fst snd].
      + rewrite mult_IZR, pow_bpow by exact He.
        rewrite <- (znear_ok n (d * 2 ^ e)).
        2:{ pose proof (Z.pow_pos_nonneg 2 e). nia. }
        unfold Rdiv. rewrite Rinv_1, Rmult_1_r. f_equal. f_equal. f_equal.
        rewrite mult_IZR, pow_bpow by exact He. rewrite bpow_opp.
        pose proof (bpow_gt_0 radix2 e). field. lra.
      + rewrite (bpow_opp_frac e) by lia. unfold Rdiv at 1. f_equal.
        rewrite <- (znear_ok (n * 2 ^ (- e)) d) by exact H. f_equal. f_equal.
        rewrite mult_IZR, pow_bpow by lia. field. lra.
  Qed.
End Round.
