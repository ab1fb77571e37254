(** Decimal output and input. *)

From Coq Require Import Reals Lra Lia List ZArith Bool Ascii String.
From Verif Require Import Model_Num RealAux Model_Base Model_Kernels Model_Adam Model_Fitter
  Model_Outline Spec_Outline.
Import ListNotations.
Local Open Scope R_scope.

(** ** Powers of ten *)

Lemma p10_pos k : 0 < powerRZ 10 k.
Proof. apply powerRZ_lt. lra. Qed.

Lemma p10_add a b : powerRZ 10 (a + b) = powerRZ 10 a * powerRZ 10 b.
Proof. apply powerRZ_add. lra. Qed.

Lemma p10_nat n : powerRZ 10 (Z.of_nat n) = 10 ^ n.
Proof. symmetry. apply pow_powerRZ. Qed.

Lemma p10_IZR k : (0 <= k)%Z -> powerRZ 10 k = IZR (10 ^ k).
Proof.
  intros H. rewrite <- (Z2Nat.id k H). rewrite p10_nat, pow_IZR. reflexivity.
Qed.

Lemma p10_pow10 k : powerRZ 10 k = pow10 (IZR k).
Proof.
  unfold pow10.
  assert (HN : forall n, 10 ^ n = exp (INR n * ln 10)).
  { intros n. rewrite <- (exp_ln (10 ^ n)) by (apply pow_lt; lra).
    rewrite ln_pow by lra. reflexivity. }
  destruct k as [|p|p]; cbn [powerRZ].
  - rewrite Rmult_0_l, exp_0. reflexivity.
  - rewrite HN, INR_IPR. reflexivity.
  - rewrite HN, INR_IPR. change (IZR (Z.neg p)) with (- IPR p).
    rewrite Ropp_mult_distr_l_reverse, exp_Ropp. reflexivity.
Qed.

Lemma p10_le a b : (a <= b)%Z -> powerRZ 10 a <= powerRZ 10 b.
Proof. intros H. rewrite !p10_pow10. apply pow10_le. now apply IZR_le. Qed.

Lemma p10_5 : powerRZ 10 5 = 100000.
Proof. rewrite p10_IZR by lia. reflexivity. Qed.
Lemma p10_6 : powerRZ 10 6 = 1000000.
Proof. rewrite p10_IZR by lia. reflexivity. Qed.

(** ** Rounding *)

Lemma Int_part_bounds x : IZR (Int_part x) <= x < IZR (Int_part x) + 1.
Proof. destruct (base_Int_part x). lra. Qed.

Lemma round_near x : Rabs (x - IZR (round_half_even x)) <= 1 / 2.
Proof.
  unfold round_half_even. pose proof (Int_part_bounds x).
  destruct (Rlt_dec _ _); [|destruct (Rlt_dec _ _); [|destruct (Z.even _)]];
    rewrite ?plus_IZR; apply Rabs_le; lra.
Qed.

(** The rounded integer is a closest one. *)
Lemma round_best x n : Rabs (x - IZR (round_half_even x)) <= Rabs (x - IZR n).
Proof.
  pose proof (round_near x) as H. set (m := round_half_even x) in *.
  destruct (Z.eq_dec n m) as [->|Hne]; [lra|].
  assert (H1 : 1 <= Rabs (IZR n - IZR m)).
  { rewrite <- minus_IZR, <- abs_IZR. apply IZR_le. lia. }
  pose proof (Rabs_triang (IZR n - x) (x - IZR m)) as HT.
  replace (IZR n - x + (x - IZR m)) with (IZR n - IZR m) in HT by ring.
  rewrite (Rabs_minus_sym (IZR n) x) in HT. lra.
Qed.

Lemma round_bounds x a b : IZR a <= x <= IZR b -> (a <= round_half_even x <= b)%Z.
Proof.
  intros H. pose proof (round_near x) as HN. apply Rabs_le_inv in HN || idtac.
  unfold round_half_even in *. pose proof (Int_part_bounds x) as HB.
  assert (HA : (a <= Int_part x)%Z).
  { assert (a < Int_part x + 1)%Z; [|lia]. apply lt_IZR. rewrite plus_IZR. lra. }
  assert (HC : (Int_part x <= b)%Z) by (apply le_IZR; lra).
  assert (HD : 0 < x - IZR (Int_part x) -> (Int_part x + 1 <= b)%Z).
  { intros HX. assert (Int_part x < b)%Z; [|lia]. apply lt_IZR. lra. }
  destruct (Rlt_dec _ _); [lia|]. destruct (Rlt_dec _ _); [specialize (HD ltac:(lra)); lia|].
  destruct (Z.even _); [lia|]. specialize (HD ltac:(lra)). lia.
Qed.

Lemma exponent_bounds x : 0 < x ->
  let e := Int_part (log10 x) in powerRZ 10 e <= x < powerRZ 10 (e + 1).
Proof.
  intros Hx e. pose proof (Int_part_bounds (log10 x)) as H. fold e in H.
  rewrite !p10_pow10, plus_IZR. pose proof (pow10_log10 x Hx) as HX.
  pose proof (pow10_le (IZR e) (log10 x) ltac:(lra)). pose proof (pow10_lt (log10 x) (IZR e + 1) ltac:(lra)). lra.
Qed.

(** The digits and exponent written for a positive number. *)
Lemma sci_spec x m e : 0 < x -> sci_digits x = (m, e) ->
  (100000 <= m < 1000000)%Z /\ nearest_six x (IZR m * powerRZ 10 (e - 5)).
Proof.
  intros Hx. unfold sci_digits. set (E := Int_part (log10 x)).
  pose proof (exponent_bounds x Hx) as HE. cbv zeta in HE. fold E in HE.
  set (g := powerRZ 10 (E - 5)). assert (Hg : 0 < g) by apply p10_pos.
  set (M := round_half_even (x / g)).
  assert (H5 : powerRZ 10 E = 100000 * g).
  { unfold g. rewrite <- p10_5, <- p10_add. f_equal. lia. }
  assert (H6 : powerRZ 10 (E + 1) = 1000000 * g).
  { unfold g. rewrite <- p10_6, <- p10_add. f_equal. lia. }
  rewrite H5, H6 in HE.
  assert (Hq : 100000 <= x / g < 1000000).
  { split; [apply Rmult_le_reg_r with g|apply Rmult_lt_reg_r with g]; try lra;
      unfold Rdiv; rewrite Rmult_assoc, Rinv_l, Rmult_1_r by lra; lra. }
  assert (HM : (100000 <= M <= 1000000)%Z) by (apply round_bounds; lra).
  (* distance to any multiple of g *)
  assert (HB : forall n, Rabs (x - IZR M * g) <= Rabs (x - IZR n * g)).
  { intros n. pose proof (round_best (x / g) n) as H. fold M in H.
    assert (HS : forall z, Rabs (x - IZR z * g) = g * Rabs (x / g - IZR z)).
    { intros z. rewrite <- (Rabs_pos_eq g) at 2 by lra. rewrite <- Rabs_mult. f_equal. field. lra. }
    rewrite !HS. apply Rmult_le_compat_l; lra. }
  assert (HN : forall z, six_digit z -> Rabs (x - IZR M * g) <= Rabs (x - z)).
  { intros z (n & k & -> & Hn). destruct (Z_le_gt_dec (E - 5) k) as [Hk|Hk].
    - replace (IZR n * powerRZ 10 k) with (IZR (n * 10 ^ (k - (E - 5))) * g); [apply HB|].
      rewrite mult_IZR, <- p10_IZR by lia. unfold g. rewrite Rmult_assoc, <- p10_add.
      do 2 f_equal. lia.
    - apply Rle_trans with (Rabs (x - IZR 100000 * g)); [apply HB|].
      assert (HZ : IZR n * powerRZ 10 k <= 100000 * g).
      { apply Rle_trans with (1000000 * powerRZ 10 k).
        - apply Rmult_le_compat_r; [left; apply p10_pos|]. apply IZR_le. lia.
        - rewrite <- p10_5, <- p10_6. unfold g. rewrite <- !p10_add. apply p10_le. lia. }
      rewrite !Rabs_pos_eq by lra. lra. }
  fold M g. destruct (Z.eqb_spec M 1000000) as [HEq|HEq]; intros [= <- <-].
  - assert (HV : IZR 100000 * powerRZ 10 (E + 1 - 5) = IZR M * g).
    { rewrite HEq. unfold g. rewrite <- p10_5, <- p10_6 at 1. rewrite <- !p10_add. f_equal. lia. }
    split; [lia|]. rewrite HV. split; [|exact HN].
    rewrite <- HV. exists 100000%Z, (E + 1 - 5)%Z. split; [reflexivity|lia].
  - split; [lia|]. split; [|exact HN].
    exists M, (E - 5)%Z. split; [reflexivity|lia].
Qed.

Lemma six_digit_opp z : six_digit z -> six_digit (- z).
Proof.
  intros (M & k & -> & H). exists (- M)%Z, k. split; [rewrite opp_IZR; ring|lia].
Qed.

Lemma nearest_opp x y : nearest_six x y -> nearest_six (- x) (- y).
Proof.
  intros [H1 H2]. split; [now apply six_digit_opp|]. intros z Hz.
  specialize (H2 _ (six_digit_opp _ Hz)).
  replace (- x - - y) with (- (x - y)) by ring. replace (- x - z) with (- (x - - z)) by ring.
  now rewrite !Rabs_Ropp.
Qed.

Lemma nearest_exact x y : six_digit x -> nearest_six x y -> y = x.
Proof.
  intros Hx [_ H]. specialize (H x Hx). rewrite (Rminus_diag_eq x x eq_refl), Rabs_R0 in H.
  pose proof (Rabs_pos (x - y)). destruct (Req_dec (x - y) 0) as [E|E]; [lra|].
  apply Rabs_pos_lt in E. lra.
Qed.

Lemma nearest_rel x y : nearest_six x y -> Rabs (x - y) <= 5 / 1000000 * Rabs x.
Proof.
  assert (HP : forall x y, 0 < x -> nearest_six x y -> Rabs (x - y) <= 5 / 1000000 * Rabs x).
  { intros a b Ha [_ Hb].
    pose proof (exponent_bounds a Ha) as HE. cbv zeta in HE. set (E := Int_part (log10 a)) in *.
    set (g := powerRZ 10 (E - 5)). assert (Hg : 0 < g) by apply p10_pos.
    assert (H5 : powerRZ 10 E = 100000 * g).
    { unfold g. rewrite <- p10_5, <- p10_add. f_equal. lia. }
    destruct (sci_digits a) as [m e] eqn:Es. destruct (sci_spec a m e Ha Es) as (_ & Hs & _).
    assert (HR : Rabs (a - IZR (round_half_even (a / g)) * g) <= 1 / 2 * g).
    { replace (a - IZR (round_half_even (a / g)) * g) with ((a / g - IZR (round_half_even (a / g))) * g)
        by (field; lra).
      rewrite Rabs_mult, (Rabs_pos_eq g) by lra. apply Rmult_le_compat_r; [lra|apply round_near]. }
    assert (HS : six_digit (IZR (round_half_even (a / g)) * g)).
    { unfold sci_digits in Es. fold E in Es. fold g in Es.
      destruct (Z.eqb_spec (round_half_even (a / g)) 1000000) as [HEq|HEq].
      - rewrite HEq. exists 1%Z, (E + 1)%Z. split; [|lia].
        unfold g. rewrite <- p10_6, <- p10_add, Rmult_1_l. f_equal. lia.
      - injection Es as E1 E2. exists m, (E - 5)%Z. split; [now rewrite E1|].
        destruct (sci_spec a m e Ha) as (Hm & _); [|lia].
        unfold sci_digits. fold E. fold g. rewrite (proj2 (Z.eqb_neq _ _) HEq). congruence. }
    specialize (Hb _ HS). rewrite (Rabs_pos_eq a) by lra. lra. }
  intros H. destruct (Rtotal_order x 0) as [Hx|[Hx|Hx]].
  - apply nearest_opp in H. apply HP in H; [|lra].
    replace (- x - - y) with (- (x - y)) in H by ring. now rewrite !Rabs_Ropp in H.
  - subst. assert (y = 0).
    { apply (nearest_exact 0 y); auto. exists 0%Z, 0%Z. split; [ring|lia]. }
    subst. rewrite Rminus_diag_eq, Rabs_R0 by reflexivity. lra.
  - now apply HP.
Qed.

(** ** Digits *)

Definition is_digit (d : Z) : Prop := (0 <= d < 10)%Z.

Lemma char_digit_char d : is_digit d -> char_digit (digit_char d) = Some d.
Proof.
  intros H. unfold is_digit in H.
  assert (HC : (d = 0 \/ d = 1 \/ d = 2 \/ d = 3 \/ d = 4 \/ d = 5 \/ d = 6 \/ d = 7 \/ d = 8 \/ d = 9)%Z) by lia.
  intuition (subst; reflexivity).
Qed.

Lemma value_app l d : value_of (l ++ [d]) = (10 * value_of l + d)%Z.
Proof. unfold value_of. now rewrite fold_left_app. Qed.

Lemma digits_fuel_spec f : forall n, (0 <= n)%Z -> (n <= Z.of_nat f)%Z ->
  value_of (digits_fuel f n) = n /\ digits_fuel f n <> [] /\ Forall is_digit (digits_fuel f n).
Proof.
  induction f as [|f IH]; intros n H0 Hn; cbn [digits_fuel].
  - assert (n = 0)%Z by lia. subst. split; [reflexivity|]. split; [discriminate|].
    constructor; [unfold is_digit; lia|constructor].
  - destruct (Z.ltb_spec n 10) as [H|H].
    + split; [cbn; lia|]. split; [discriminate|]. constructor; [unfold is_digit; lia|constructor].
    + assert (HD : (n / 10 <= Z.of_nat f)%Z).
      { assert (n / 10 < n)%Z by (apply Z.div_lt; lia). lia. }
      destruct (IH (n / 10)%Z) as (A & B & C); [apply Z.div_pos; lia|exact HD|].
      split; [|split].
      * rewrite value_app, A. symmetry. apply Z.div_mod. lia.
      * intros E. apply app_eq_nil in E. destruct E. discriminate.
      * apply Forall_app. split; [exact C|]. constructor; [|constructor]. apply Z.mod_pos_bound. lia.
Qed.

Lemma digits_spec n : (0 <= n)%Z ->
  value_of (digits n) = n /\ digits n <> [] /\ Forall is_digit (digits n).
Proof. intros H. apply digits_fuel_spec; auto. lia. Qed.

Lemma fixed_spec w : forall n, (0 <= n < 10 ^ Z.of_nat w)%Z ->
  value_of (fixed_digits w n) = n /\ Datatypes.length (fixed_digits w n) = w /\ Forall is_digit (fixed_digits w n).
Proof.
  induction w as [|w IH]; intros n H.
  - cbn in *. split; [lia|]. split; [reflexivity|constructor].
  - cbn [fixed_digits]. rewrite Nat2Z.inj_succ, Z.pow_succ_r in H by lia.
    destruct (IH (n / 10)%Z) as (A & B & C).
    { split; [apply Z.div_pos; lia|]. apply Z.div_lt_upper_bound; lia. }
    split; [|split].
    + rewrite value_app, A. symmetry. apply Z.div_mod. lia.
    + rewrite app_length, B. cbn. lia.
    + apply Forall_app. split; [exact C|]. constructor; [|constructor]. apply Z.mod_pos_bound. lia.
Qed.

(** The rest of a number does not start with a digit. *)
Definition no_digit (s : str) : Prop := match s with [] => True | c :: _ => char_digit c = None end.

Lemma take_digits_map ds s : Forall is_digit ds -> no_digit s ->
  take_digits (map digit_char ds ++ s) = (ds, s).
Proof.
  intros H Hs. induction H as [|d ds Hd _ IH].
  - destruct s as [|c s]; [reflexivity|]. cbn in *. now rewrite Hs.
  - cbn [map app take_digits]. rewrite char_digit_char by exact Hd. now rewrite IH.
Qed.

(** Characters written by [format_5e] and [str_of_int] are not white space. *)
Lemma digit_not_space d : is_digit d -> is_space (digit_char d) = false.
Proof.
  intros H. unfold is_digit in H.
  assert (HC : (d = 0 \/ d = 1 \/ d = 2 \/ d = 3 \/ d = 4 \/ d = 5 \/ d = 6 \/ d = 7 \/ d = 8 \/ d = 9)%Z) by lia.
  intuition (subst; reflexivity).
Qed.

Definition plain (s : str) : Prop := Forall (fun c => is_space c = false) s.

Lemma plain_digits ds : Forall is_digit ds -> plain (map digit_char ds).
Proof. intros H. apply Forall_map. eapply Forall_impl; [|exact H]. apply digit_not_space. Qed.

Lemma plain_app a b : plain a -> plain b -> plain (a ++ b).
Proof. intros. apply Forall_app. auto. Qed.

Lemma field_plain s : field s <-> s <> [] /\ plain s.
Proof.
  unfold field, plain. rewrite Forall_forall. reflexivity.
Qed.

(** ** Splitting lines *)

Lemma lstrip_plain s t : plain s -> s <> [] -> lstrip (s ++ t) = s ++ t.
Proof.
  intros H Hne. destruct s as [|c s]; [contradiction|]. inversion H; subst.
  cbn [app lstrip]. now rewrite H2.
Qed.

Lemma strip_plain s : plain s -> strip s = s.
Proof.
  intros H. unfold strip. destruct s as [|c s]; [reflexivity|].
  rewrite <- (app_nil_r (c :: s)) at 1. rewrite lstrip_plain by (auto; discriminate).
  rewrite app_nil_r. rewrite <- (app_nil_r (rev (c :: s))).
  rewrite lstrip_plain.
  - rewrite app_nil_r. apply rev_involutive.
  - apply Forall_rev. exact H.
  - intros E. apply (f_equal (@rev ascii)) in E. rewrite rev_involutive in E. discriminate.
Qed.

Lemma split_from_plain s : forall cur t, plain s ->
  split_from cur (s ++ t) = split_from (rev s ++ cur) t.
Proof.
  induction s as [|c s IH]; intros cur t H; [reflexivity|].
  inversion H; subst. cbn [app split_from]. rewrite H2, IH by auto.
  cbn [rev]. now rewrite <- app_assoc.
Qed.

Lemma split_cons s t c : plain s -> s <> [] -> is_space c = true ->
  split (s ++ c :: t) = s :: split t.
Proof.
  intros H Hne Hc. unfold split. rewrite split_from_plain by auto. rewrite app_nil_r.
  cbn [split_from]. rewrite Hc. destruct (rev s) as [|a r] eqn:E.
  - exfalso. apply Hne. rewrite <- (rev_involutive s), E. reflexivity.
  - rewrite <- E, rev_involutive. reflexivity.
Qed.

Lemma split_one s : plain s -> s <> [] -> split s = [s].
Proof.
  intros H Hne. unfold split. rewrite <- (app_nil_r s) at 1. rewrite split_from_plain by auto.
  rewrite app_nil_r. cbn [split_from]. destruct (rev s) as [|a r] eqn:E.
  - exfalso. apply Hne. rewrite <- (rev_involutive s), E. reflexivity.
  - rewrite <- E, rev_involutive. reflexivity.
Qed.

Lemma join_ends l : l <> [] -> Forall field l ->
  exists s t, field s /\ join l = s ++ t /\ exists u v, field u /\ join l = v ++ u.
Proof.
  induction l as [|s l IH]; intros Hne H; [contradiction|]. inversion H; subst.
  destruct l as [|s' l'].
  - exists s, []. split; [auto|]. split; [now rewrite app_nil_r|]. exists s, []. split; auto.
  - destruct IH as (a & b & Ha & E & u & v & Hu & E'); [discriminate|auto|].
    exists s, (" "%char :: join (s' :: l')). split; [auto|]. split; [reflexivity|].
    exists u, (s ++ " "%char :: v). split; [auto|].
    change (join (s :: s' :: l')) with (s ++ " "%char :: join (s' :: l')). rewrite E'.
    now rewrite <- app_assoc.
Qed.

Lemma strip_join l : Forall field l -> l <> [] -> strip (join l ++ [ascii_of_nat 10]) = join l.
Proof.
  intros H Hne. destruct (join_ends l Hne H) as (s & t & Hs & E & u & v & Hu & E').
  apply field_plain in Hs, Hu. destruct Hs as [Hs1 Hs2], Hu as [Hu1 Hu2].
  unfold strip. rewrite E at 1. rewrite <- app_assoc, lstrip_plain by auto.
  rewrite app_assoc, <- E, rev_app_distr. cbn [rev app].
  change (lstrip (ascii_of_nat 10 :: rev (join l))) with (lstrip (rev (join l))).
  rewrite E', rev_app_distr, lstrip_plain.
  - rewrite <- rev_app_distr. apply rev_involutive.
  - apply Forall_rev. exact Hu2.
  - intros HX. apply Hu1. rewrite <- (rev_involutive u), HX. reflexivity.
Qed.

Lemma split_join l : Forall field l -> split (join l) = l.
Proof.
  induction l as [|s l IH]; intros H; [reflexivity|]. inversion H; subst.
  apply field_plain in H2. destruct H2 as [A B]. destruct l as [|s' l'].
  - now apply split_one.
  - cbn [join]. rewrite split_cons by auto. f_equal. apply IH. auto.
Qed.

Lemma split_line l : Forall field l -> split (strip (join l ++ [ascii_of_nat 10])) = l.
Proof.
  intros H. destruct l as [|s l]; [reflexivity|].
  rewrite strip_join by (auto; discriminate). now apply split_join.
Qed.

(** ** Integers *)

Lemma sign_digits ds t : ds <> [] -> Forall is_digit ds ->
  take_sign (map digit_char ds ++ t) = (false, map digit_char ds ++ t).
Proof.
  intros Hne H. destruct H as [|d ds Hd _]; [contradiction|]. unfold is_digit in Hd.
  assert (HC : (d = 0 \/ d = 1 \/ d = 2 \/ d = 3 \/ d = 4 \/ d = 5 \/ d = 6 \/ d = 7 \/ d = 8 \/ d = 9)%Z) by lia.
  intuition (subst; reflexivity).
Qed.

Lemma str_of_int_field n : field (str_of_int n).
Proof.
  apply field_plain. unfold str_of_int. destruct (Z.ltb_spec n 0).
  - destruct (digits_spec (- n)) as (_ & _ & H1); [lia|]. split; [discriminate|].
    constructor; [reflexivity|]. now apply plain_digits.
  - destruct (digits_spec n) as (_ & H1 & H2); [lia|]. split.
    + intros E. apply map_eq_nil in E. contradiction.
    + now apply plain_digits.
Qed.

Lemma parse_int_str n : parse_int (str_of_int n) = Ok n.
Proof.
  unfold parse_int. rewrite strip_plain by (apply field_plain, str_of_int_field).
  unfold str_of_int. destruct (Z.ltb_spec n 0).
  - destruct (digits_spec (- n)) as (A & B & C); [lia|]. cbn [take_sign].
    rewrite <- (app_nil_r (map digit_char _)), take_digits_map by (auto; exact I).
    destruct (digits (- n)) as [|d ds]; [contradiction|]. rewrite A. f_equal. lia.
  - destruct (digits_spec n) as (A & B & C); [lia|].
    rewrite <- (app_nil_r (map digit_char _)), sign_digits by auto.
    rewrite take_digits_map by (auto; exact I).
    destruct (digits n) as [|d ds]; [contradiction|]. now rewrite A.
Qed.

(** ** Floats *)

Lemma exp_field_plain e : plain (exp_field e).
Proof.
  unfold exp_field. apply Forall_cons; [destruct (e <? 0)%Z; reflexivity|].
  destruct (Z.ltb_spec (Z.abs e) 100).
  - destruct (fixed_spec 2 (Z.abs e)) as (_ & _ & H1); [cbn; lia|]. now apply plain_digits.
  - destruct (digits_spec (Z.abs e)) as (_ & _ & H1); [lia|]. now apply plain_digits.
Qed.

Lemma parse_exp_field e : parse_exp ("e"%char :: exp_field e) = Ok e.
Proof.
  unfold parse_exp. change (eqb_str [lower "e"%char] (lit "e")) with true. cbv iota.
  unfold exp_field.
  assert (HS : exists ds, (if (Z.abs e <? 100)%Z then map digit_char (fixed_digits 2 (Z.abs e))
                 else map digit_char (digits (Z.abs e))) = map digit_char ds /\
              value_of ds = Z.abs e /\ ds <> [] /\ Forall is_digit ds).
  { destruct (Z.ltb_spec (Z.abs e) 100).
    - destruct (fixed_spec 2 (Z.abs e)) as (A & B & C); [cbn; lia|].
      eexists. split; [reflexivity|]. split; [exact A|]. split; [|exact C].
      intros E. rewrite E in B. discriminate.
    - destruct (digits_spec (Z.abs e)) as (A & B & C); [lia|]. eexists. split; [reflexivity|]. auto. }
  destruct HS as (ds & -> & A & B & C).
  destruct (Z.ltb_spec e 0); cbn [take_sign].
  - rewrite <- (app_nil_r (map digit_char ds)), take_digits_map by (auto; exact I).
    destruct ds as [|d ds]; [contradiction|]. rewrite A. f_equal. lia.
  - rewrite <- (app_nil_r (map digit_char ds)), take_digits_map by (auto; exact I).
    destruct ds as [|d ds]; [contradiction|]. rewrite A. f_equal. lia.
Qed.

Lemma sci_chars_eq m e : (0 <= m < 1000000)%Z ->
  exists d0 ds, fixed_digits 6 m = d0 :: ds /\ Datatypes.length ds = 5%nat /\ value_of (d0 :: ds) = m /\
    is_digit d0 /\ Forall is_digit ds /\
    sci_chars m e = map digit_char [d0] ++ "."%char :: map digit_char ds ++ "e"%char :: exp_field e.
Proof.
  intros H. destruct (fixed_spec 6 m) as (A & B & C); [cbn; lia|].
  unfold sci_chars. destruct (fixed_digits 6 m) as [|d0 ds]; [discriminate|].
  inversion C; subst. exists d0, ds. cbn [map app]. injection B as B.
  repeat (split; [first [reflexivity|assumption]|]). reflexivity.
Qed.

Lemma sci_chars_plain m e : (0 <= m < 1000000)%Z -> plain (sci_chars m e).
Proof.
  intros H. destruct (sci_chars_eq m e H) as (d0 & ds & _ & _ & _ & H1 & H2 & ->).
  apply plain_app; [apply plain_digits; auto|]. apply Forall_cons; [reflexivity|].
  apply plain_app; [now apply plain_digits|]. apply Forall_cons; [reflexivity|apply exp_field_plain].
Qed.

Definition is_not_word (s : str) : Prop :=
  eqb_str (map lower s) (lit "nan") = false /\ eqb_str (map lower s) (lit "inf") = false /\
  eqb_str (map lower s) (lit "infinity") = false.

Lemma digit_not_word d s : is_digit d -> is_not_word (digit_char d :: s).
Proof.
  intros H. unfold is_digit in H.
  assert (HL : nat_of_ascii (lower (digit_char d)) = (48 + Z.to_nat d)%nat).
  { assert (HC : (d = 0 \/ d = 1 \/ d = 2 \/ d = 3 \/ d = 4 \/ d = 5 \/ d = 6 \/ d = 7 \/ d = 8 \/ d = 9)%Z) by lia.
    intuition (subst; reflexivity). }
  assert (HN : forall c w, eqb_str (lower (digit_char d) :: map lower s) (c :: w) = true ->
            (48 <= nat_of_ascii c < 58)%nat).
  { intros c w. unfold eqb_str. destruct (list_eq_dec ascii_dec _ _) as [E|]; [|discriminate].
    intros _. injection E as E _. rewrite <- E, HL. lia. }
  unfold is_not_word. cbn [map].
  repeat split; apply not_true_iff_false; intros HX; apply HN in HX; revert HX; vm_compute; lia.
Qed.

Lemma parse_float_sci neg m e : (0 <= m < 1000000)%Z ->
  parse_float (if neg : bool then "-"%char :: sci_chars m e else sci_chars m e)
  = Ok (Fin (if neg then - (IZR m * powerRZ 10 (e - 5)) else IZR m * powerRZ 10 (e - 5))).
Proof.
  intros H. unfold parse_float.
  assert (HP : plain (if neg then "-"%char :: sci_chars m e else sci_chars m e)).
  { destruct neg; [apply Forall_cons; [reflexivity|]|]; now apply sci_chars_plain. }
  rewrite strip_plain by exact HP. clear HP.
  assert (HS : take_sign (if neg then "-"%char :: sci_chars m e else sci_chars m e) = (neg, sci_chars m e)).
  { destruct neg; [reflexivity|].
    destruct (sci_chars_eq m e H) as (d0 & ds & _ & _ & _ & H1 & H2 & ->).
    apply sign_digits; [discriminate|auto]. }
  rewrite HS. destruct (sci_chars_eq m e H) as (d0 & ds & _ & HL & HV & H1 & H2 & ->).
  destruct (digit_not_word d0 ("."%char :: map digit_char ds ++ "e"%char :: exp_field e) H1) as (W1 & W2 & W3).
  cbn [map app] in W1, W2, W3 |- *. cbv zeta. rewrite W1, W2, W3. cbn [orb].
  change (digit_char d0 :: "."%char :: map digit_char ds ++ "e"%char :: exp_field e)
    with (map digit_char [d0] ++ ("."%char :: map digit_char ds ++ "e"%char :: exp_field e)).
  rewrite take_digits_map by (auto; reflexivity).
  rewrite take_digits_map by (auto; reflexivity). cbn [app].
  rewrite parse_exp_field. cbn [bind]. rewrite HV, HL. reflexivity.
Qed.

Lemma sci_spec' x : 0 < x -> exists m e, sci_digits x = (m, e) /\ (0 <= m < 1000000)%Z /\
  nearest_six x (IZR m * powerRZ 10 (e - 5)).
Proof.
  intros H. destruct (sci_digits x) as [m e] eqn:E. destruct (sci_spec x m e H E) as (A & B).
  exists m, e. split; [reflexivity|]. split; [lia|exact B].
Qed.

Lemma format_field x : field (format_5e x).
Proof.
  apply field_plain. destruct x as [r| | |]; try (split; [discriminate|repeat constructor]).
  unfold format_5e.
  assert (HNE : forall m e, (0 <= m < 1000000)%Z -> sci_chars m e <> []).
  { intros m e H. destruct (sci_chars_eq m e H) as (d0 & ds & _ & _ & _ & _ & _ & ->). discriminate. }
  destruct (Rlt_dec r 0); [|destruct (Rlt_dec 0 r)].
  - destruct (sci_spec' (- r)) as (m & e & -> & H & _); [lra|]. split; [discriminate|].
    apply Forall_cons; [reflexivity|]. now apply sci_chars_plain.
  - destruct (sci_spec' r) as (m & e & -> & H & _); [lra|]. split; [auto|now apply sci_chars_plain].
  - split; [apply HNE; lia|apply sci_chars_plain; lia].
Qed.

Lemma parse_format x : exists y, parse_float (format_5e x) = Ok y /\ reads_back x y.
Proof.
  destruct x as [r| | |].
  - unfold format_5e. destruct (Rlt_dec r 0); [|destruct (Rlt_dec 0 r)].
    + destruct (sci_spec' (- r)) as (m & e & -> & H & HN); [lra|].
      pose proof (parse_float_sci true m e H) as HP. cbv iota in HP. rewrite HP.
      eexists. split; [reflexivity|]. eexists. split; [reflexivity|].
      apply nearest_opp in HN. now rewrite Ropp_involutive in HN.
    + destruct (sci_spec' r) as (m & e & -> & H & HN); [lra|].
      pose proof (parse_float_sci false m e H) as HP. cbv iota in HP. rewrite HP.
      eexists. split; [reflexivity|]. eexists. split; [reflexivity|]. exact HN.
    + pose proof (parse_float_sci false 0 0 ltac:(lia)) as HP. cbv iota in HP. rewrite HP.
      eexists. split; [reflexivity|]. eexists. split; [reflexivity|].
      assert (r = 0) by lra. subst. rewrite Rmult_0_l. split.
      * exists 0%Z, 0%Z. split; [ring|lia].
      * intros z _. rewrite Rminus_diag_eq, Rabs_R0 by reflexivity. apply Rabs_pos.
  - exists PInf. split; reflexivity.
  - exists MInf. split; reflexivity.
  - exists NaN. split; reflexivity.
Qed.

(** A formatted float is never an integer literal. *)
Lemma parse_int_format x : parse_int (format_5e x) = Err ValueError.
Proof.
  destruct x as [r| | |]; try reflexivity.
  assert (HX : forall neg m e, (0 <= m < 1000000)%Z ->
     parse_int (if neg : bool then "-"%char :: sci_chars m e else sci_chars m e) = Err ValueError).
  { intros neg m e H. unfold parse_int.
    assert (HP : plain (if neg then "-"%char :: sci_chars m e else sci_chars m e)).
    { destruct neg; [apply Forall_cons; [reflexivity|]|]; now apply sci_chars_plain. }
    rewrite strip_plain by exact HP.
    assert (HS : take_sign (if neg then "-"%char :: sci_chars m e else sci_chars m e) = (neg, sci_chars m e)).
    { destruct neg; [reflexivity|].
      destruct (sci_chars_eq m e H) as (d0 & ds & _ & _ & _ & H1 & H2 & ->).
      apply sign_digits; [discriminate|auto]. }
    rewrite HS. destruct (sci_chars_eq m e H) as (d0 & ds & _ & HL & HV & H1 & H2 & ->).
    rewrite take_digits_map by (auto; reflexivity). reflexivity. }
  unfold format_5e. destruct (Rlt_dec r 0); [|destruct (Rlt_dec 0 r)].
  - destruct (sci_spec' (- r)) as (m & e & -> & H & HN); [lra|]. exact (HX true m e H).
  - destruct (sci_spec' r) as (m & e & -> & H & HN); [lra|]. exact (HX false m e H).
  - exact (HX false 0%Z 0%Z ltac:(lia)).
Qed.
