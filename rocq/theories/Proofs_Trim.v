(** Percentiles and trimmed moments. *)

From Coq Require Import Reals Lra Lia List Arith ZArith Permutation Sorted Bool.
From Verif Require Import Model_Num RealAux Model_Base Model_Kernels Model_Utils Spec_Utils.
Import ListNotations.
Local Open Scope R_scope.

(** ** Sorting *)

Lemma insert_perm x l : Permutation (x :: l) (insert_R x l).
Proof.
  induction l as [|y l IH]; cbn; [auto|].
  destruct (Rleb x y); [auto|].
  rewrite perm_swap. now apply perm_skip.
Qed.

Lemma sort_perm l : Permutation l (sort_R l).
Proof.
  induction l as [|x l IH]; cbn; [auto|].
  rewrite <- insert_perm. now apply perm_skip.
Qed.

Lemma insert_sorted x l : StronglySorted Rle l -> StronglySorted Rle (insert_R x l).
Proof.
  induction 1 as [|y l HS IH HF]; cbn.
  - constructor; constructor.
  - destruct (Rleb x y) eqn:E.
    + apply Rleb_true in E. constructor; [now constructor|]. constructor; auto.
      eapply Forall_impl; [|exact HF]. cbn. intros; lra.
    + apply Rleb_false in E. constructor; [exact IH|].
      apply (Permutation_Forall (insert_perm x l)). constructor; [lra|exact HF].
Qed.

Lemma sort_sorted l : StronglySorted Rle (sort_R l).
Proof. induction l; cbn; [constructor|now apply insert_sorted]. Qed.

Lemma sorted_unique s : forall s', StronglySorted Rle s -> StronglySorted Rle s' ->
  Permutation s s' -> s = s'.
Proof.
  induction s as [|a s IH]; intros s' H H' HP.
  - now rewrite (Permutation_nil HP).
  - destruct s' as [|b s']; [symmetry in HP; now apply Permutation_nil_cons in HP|].
    inversion H as [|? ? HS HF]; subst. inversion H' as [|? ? HS' HF']; subst.
    rewrite Forall_forall in HF, HF'.
    assert (a = b).
    { assert (a <= b).
      { assert (HI : In b (a :: s)) by (apply (Permutation_in b (Permutation_sym HP)); cbn; auto).
        destruct HI as [->|HI]; [lra|auto]. }
      assert (b <= a).
      { assert (HI : In a (b :: s')) by (apply (Permutation_in a HP); cbn; auto).
        destruct HI as [->|HI]; [lra|auto]. }
      lra. }
    subst b. f_equal. apply IH; auto. now apply Permutation_cons_inv in HP.
Qed.

(** ** The model's percentile is the documented quantile *)

Lemma Int_part_spec r n : INR n <= r < INR n + 1 -> Int_part r = Z.of_nat n.
Proof.
  intros [H1 H2]. destruct (base_Int_part r) as [B1 B2].
  rewrite INR_IZR_INZ in H1, H2.
  assert (Int_part r < Z.of_nat n + 1)%Z by (apply lt_IZR; rewrite plus_IZR; lra).
  assert (Z.of_nat n < Int_part r + 1)%Z by (apply lt_IZR; rewrite plus_IZR; lra).
  lia.
Qed.

Lemma nat_floor r : 0 <= r -> exists n, INR n <= r < INR n + 1.
Proof.
  intros H. destruct (base_Int_part r) as [B1 B2].
  assert (0 <= Int_part r)%Z.
  { assert (-1 < Int_part r)%Z; [|lia]. apply lt_IZR. lra. }
  exists (Z.to_nat (Int_part r)). rewrite INR_IZR_INZ, Z2Nat.id by auto. lra.
Qed.

Lemma floor_unique n w m v : INR n + w = INR m + v -> 0 <= w < 1 -> 0 <= v < 1 -> n = m.
Proof.
  intros E Hw Hv. rewrite !INR_IZR_INZ in E.
  assert (Z.of_nat n < Z.of_nat m + 1)%Z by (apply lt_IZR; rewrite plus_IZR; lra).
  assert (Z.of_nat m < Z.of_nat n + 1)%Z by (apply lt_IZR; rewrite plus_IZR; lra).
  lia.
Qed.

Lemma percentile_quantile x q : x <> [] -> 0 <= q <= 1 -> is_quantile x q (percentile x (q * 100)).
Proof.
  intros Hx Hq. unfold percentile. replace (q * 100 / 100) with q by lra.
  set (P := q * INR (length x - 1)).
  assert (HN : 0 <= INR (length x - 1)) by apply pos_INR.
  assert (HP : 0 <= P <= INR (length x - 1)) by (unfold P; nra).
  destruct (nat_floor P (proj1 HP)) as [n Hn].
  rewrite (Int_part_spec P n Hn), Nat2Z.id.
  assert (HL : length (sort_R x) = length x) by (apply Permutation_length, Permutation_sym, sort_perm).
  assert (Hx1 : (1 <= length x)%nat) by (destruct x; [contradiction|cbn; lia]).
  assert (Hnm : (n <= length x - 1)%nat).
  { apply INR_le. lra. }
  exists (sort_R x), n, (P - INR n). split; [apply sort_perm|]. split; [apply sort_sorted|].
  split; [unfold P; lra|].
  destruct (Req_dec (P - INR n) 0) as [E|E].
  - left. split; [exact E|]. rewrite E.
    rewrite (nth_error_nth' (sort_R x) 0) by lia. f_equal. lra.
  - right. split; [lra|].
    assert (Hlt : (n < length x - 1)%nat).
    { apply INR_lt. lra. }
    rewrite Nat.min_l by lia.
    exists (nth n (sort_R x) 0), (nth (n + 1) (sort_R x) 0).
    rewrite !(nth_error_nth' (sort_R x) 0) by lia. repeat split. lra.
Qed.

Lemma quantile_unique x q v v' : is_quantile x q v -> is_quantile x q v' -> v = v'.
Proof.
  intros (s & i & w & P1 & S1 & E1 & C1) (s' & i' & w' & P2 & S2 & E2 & C2).
  assert (s' = s).
  { apply sorted_unique; auto. now rewrite <- P1, <- P2. }
  subst s'. rewrite E1 in E2.
  assert (i = i').
  { apply (floor_unique i w i' w'); auto; destruct C1, C2; lra. }
  subst i'. assert (w' = w) by lra. subst w'.
  destruct C1 as [[W1 N1]|[W1 (a & b & A & B & ->)]];
    destruct C2 as [[W2 N2]|[W2 (a' & b' & A' & B' & ->)]]; try lra; try congruence.
Qed.

Lemma quantile_perm x y q v : Permutation x y -> is_quantile x q v -> is_quantile y q v.
Proof.
  intros HP (s & i & w & P1 & S1 & E1 & C1). exists s, i, w.
  rewrite <- (Permutation_length HP). split; [now rewrite <- HP|]. auto.
Qed.

(** ** Weighted sums *)

Lemma xsum_fin l : xsum (map Fin l) = Fin (Rsum l).
Proof. unfold xsum. induction l as [|a l IH]; cbn; [reflexivity|]. now rewrite IH. Qed.

Lemma inb_spec lo hi z : inb lo hi z = (if Rlt_dec lo z then if Rlt_dec z hi then true else false else false).
Proof. unfold inb, Rltb. destruct (Rlt_dec lo z), (Rlt_dec z hi); reflexivity. Qed.

Lemma strictly_inside_inb lo hi x : strictly_inside lo hi x = filter (inb lo hi) x.
Proof.
  unfold strictly_inside. induction x as [|a x IH]; [reflexivity|]. cbn [filter].
  rewrite inb_spec. now rewrite IH.
Qed.

Lemma weight_sum lo hi x :
  xsum (map (fun z => jwhere (inb lo hi z) (Fin 1) (Fin 0)) x)
  = Fin (INR (length (strictly_inside lo hi x))).
Proof.
  rewrite strictly_inside_inb. induction x as [|a x IH]; [reflexivity|].
  cbn [map filter]. unfold xsum in *. cbn [fold_right]. rewrite IH.
  destruct (inb lo hi a); cbn [jwhere xadd].
  - cbn [length]. rewrite S_INR. f_equal. lra.
  - f_equal. lra.
Qed.

Lemma Rsum_filter lo hi x (f : R -> R) c :
  Rsum (map (fun z => f z * (jwhere (inb lo hi z) 1 0 / c)) x)
  = Rsum (map f (strictly_inside lo hi x)) / c.
Proof.
  rewrite strictly_inside_inb. induction x as [|a x IH].
  - cbn. unfold Rdiv; ring.
  - cbn [map Rsum fold_right filter]. unfold Rsum in IH. rewrite IH.
    destruct (inb lo hi a); cbn [jwhere map fold_right]; unfold Rdiv; ring.
Qed.

Definition wts (lo hi : R) (x : list R) : list xr :=
  let w := map (fun xi => jwhere (inb lo hi xi) (Fin 1) (Fin 0)) x in
  map (fun wi => xdiv wi (xsum w)) w.

Lemma wts_nonempty lo hi x : strictly_inside lo hi x <> [] ->
  wts lo hi x = map (fun z => Fin (jwhere (inb lo hi z) 1 0 / INR (length (strictly_inside lo hi x)))) x.
Proof.
  intros H. unfold wts. rewrite weight_sum, map_map. apply map_ext. intros z.
  assert (INR (length (strictly_inside lo hi x)) <> 0).
  { apply not_0_INR. destruct (strictly_inside lo hi x); [contradiction|discriminate]. }
  destruct (inb lo hi z); cbn [jwhere xdiv]; rewrite (proj2 (Reqb_false _ _)); auto.
Qed.

Lemma wts_empty lo hi x : strictly_inside lo hi x = [] -> wts lo hi x = map (fun _ => NaN) x.
Proof.
  intros H. unfold wts. rewrite weight_sum, H, map_map. apply map_ext_in. intros z Hz.
  rewrite strictly_inside_inb in H.
  assert (inb lo hi z = false).
  { destruct (inb lo hi z) eqn:E; auto. exfalso.
    assert (HI : In z (filter (inb lo hi) x)) by (apply filter_In; auto). now rewrite H in HI. }
  rewrite H0. cbn [jwhere xdiv length INR]. rewrite (proj2 (Reqb_true 0 0)); auto.
Qed.

Lemma combine_self {B} (x : list R) (f : R -> B) : combine x (map f x) = map (fun z => (z, f z)) x.
Proof. induction x; cbn; congruence. Qed.

Lemma xsum_nan l : In NaN l -> xsum l = NaN.
Proof.
  induction l as [|a l IH]; intros H; [destruct H|]. unfold xsum in *. cbn.
  destruct H as [->|H].
  - reflexivity.
  - rewrite IH by auto. now destruct a.
Qed.

Lemma trim_mean_wts lo hi x : strictly_inside lo hi x <> [] ->
  xsum (map (fun xw => xmul (Fin (fst xw)) (snd xw)) (combine x (wts lo hi x)))
  = Fin (mean (strictly_inside lo hi x)).
Proof.
  intros H. rewrite wts_nonempty by auto. rewrite combine_self, map_map. cbn [fst snd xmul].
  rewrite <- (map_map (fun z => z * (jwhere (inb lo hi z) 1 0 / INR (length (strictly_inside lo hi x)))) Fin).
  rewrite xsum_fin. rewrite (Rsum_filter lo hi x (fun z => z)). rewrite map_id. reflexivity.
Qed.

Lemma trim_mean_wts_empty lo hi x : x <> [] -> strictly_inside lo hi x = [] ->
  xsum (map (fun xw => xmul (Fin (fst xw)) (snd xw)) (combine x (wts lo hi x))) = NaN.
Proof.
  intros Hx H. rewrite wts_empty by auto. rewrite combine_self, map_map. cbn [fst snd xmul].
  destruct x; [contradiction|]. apply xsum_nan. cbn; auto.
Qed.

Lemma trimmed_mean_spec x p xlo xhi : x <> [] -> 0 <= p <= 1 / 2 ->
  is_quantile x p xlo -> is_quantile x (1 - p) xhi ->
  trimmed_mean x p = match strictly_inside xlo xhi x with
                     | [] => NaN
                     | kept => Fin (mean kept)
                     end.
Proof.
  intros Hx Hp HL HH. unfold trimmed_mean, trim_weights.
  rewrite <- (quantile_unique _ _ _ _ HL (percentile_quantile x p Hx ltac:(lra))).
  rewrite <- (quantile_unique _ _ _ _ HH (percentile_quantile x (1 - p) Hx ltac:(lra))).
  destruct (strictly_inside xlo xhi x) as [|a l] eqn:E.
  - now apply trim_mean_wts_empty.
  - rewrite <- E. apply trim_mean_wts. congruence.
Qed.

Lemma mean_between lo hi l : l <> [] -> (forall z, In z l -> lo < z < hi) -> lo < mean l < hi.
Proof.
  intros Hl H. unfold mean.
  assert (HB : forall l, l <> [] -> (forall z, In z l -> lo < z < hi) ->
    INR (length l) * lo < Rsum l < INR (length l) * hi).
  { clear. induction l as [|a [|b l] IH]; intros Hl H; [contradiction| |].
    - cbn. specialize (H a (or_introl eq_refl)). lra.
    - change (Rsum (a :: b :: l)) with (a + Rsum (b :: l)).
      change (length (a :: b :: l)) with (S (length (b :: l))). rewrite S_INR.
      destruct IH as [I1 I2]; [discriminate|intros; apply H; cbn in *; tauto|].
      specialize (H a (or_introl eq_refl)). lra. }
  specialize (HB l Hl H).
  assert (0 < INR (length l)) by (apply lt_0_INR; destruct l; [contradiction|cbn; lia]).
  split.
  - apply (Rmult_lt_reg_r (INR (length l))); auto. unfold Rdiv. rewrite Rmult_assoc, Rinv_l by lra. lra.
  - apply (Rmult_lt_reg_r (INR (length l))); auto. unfold Rdiv. rewrite Rmult_assoc, Rinv_l by lra. lra.
Qed.

Lemma strictly_inside_In lo hi x z : In z (strictly_inside lo hi x) <-> In z x /\ lo < z < hi.
Proof.
  unfold strictly_inside. rewrite filter_In.
  destruct (Rlt_dec lo z); destruct (Rlt_dec z hi); split; intros [? ?]; split; auto; try lra; discriminate.
Qed.

(** ** Variance *)

Lemma count_positive lo hi x : strictly_inside lo hi x <> [] ->
  length (filter (fun w => xltb (Fin 0) w) (wts lo hi x)) = length (strictly_inside lo hi x).
Proof.
  intros H. rewrite wts_nonempty by auto.
  assert (HC : 0 < INR (length (strictly_inside lo hi x))).
  { apply lt_0_INR. destruct (strictly_inside lo hi x); [contradiction|cbn; lia]. }
  set (c := INR (length (strictly_inside lo hi x))) in *.
  rewrite (strictly_inside_inb lo hi x). clearbody c. clear H.
  induction x as [|a x IH]; [reflexivity|]. cbn [map filter].
  assert (HB : xltb (Fin 0) (Fin (jwhere (inb lo hi a) 1 0 / c)) = inb lo hi a).
  { cbn [xltb]. destruct (inb lo hi a); cbn [jwhere].
    - apply Rltb_true. apply Rdiv_lt_0_compat; lra.
    - apply Rltb_false. unfold Rdiv. lra. }
  rewrite HB. destruct (inb lo hi a); cbn [length]; auto.
Qed.

Lemma count_positive_empty lo hi x : strictly_inside lo hi x = [] ->
  length (filter (fun w => xltb (Fin 0) w) (wts lo hi x)) = 0%nat.
Proof.
  intros H. rewrite wts_empty by auto. clear H. induction x; cbn; auto.
Qed.

Lemma trimmed_var_spec x p xlo xhi : x <> [] -> 0 <= p <= 1 / 2 ->
  is_quantile x p xlo -> is_quantile x (1 - p) xhi ->
  trimmed_mean_and_variance x p =
    (trimmed_mean x p,
     match strictly_inside xlo xhi x with
     | [] | [_] => NaN
     | kept => Fin (sample_variance kept)
     end).
Proof.
  intros Hx Hp HL HH. unfold trimmed_mean_and_variance.
  assert (HW : trim_weights x p = wts xlo xhi x).
  { unfold trim_weights.
    rewrite <- (quantile_unique _ _ _ _ HL (percentile_quantile x p Hx ltac:(lra))).
    rewrite <- (quantile_unique _ _ _ _ HH (percentile_quantile x (1 - p) Hx ltac:(lra))).
    reflexivity. }
  unfold trimmed_mean. rewrite HW. f_equal.
  destruct (strictly_inside xlo xhi x) as [|a l] eqn:E.
  - rewrite (trim_mean_wts_empty xlo xhi x Hx E).
    rewrite (count_positive_empty xlo xhi x E).
    rewrite (wts_empty xlo xhi x E), combine_self, map_map. cbn [fst snd].
    rewrite xsum_nan; [reflexivity|]. destruct x as [|b x]; [contradiction|]. cbn. auto.
  - assert (HN : strictly_inside xlo xhi x <> []) by congruence.
    rewrite (trim_mean_wts xlo xhi x HN), (count_positive xlo xhi x HN).
    rewrite (wts_nonempty xlo xhi x HN), combine_self, map_map. cbn [fst snd xsub xneg xadd xmul].
    set (kept := strictly_inside xlo xhi x) in *.
    set (mu := mean kept). set (c := INR (length kept)).
    rewrite <- (map_map (fun z => jwhere (inb xlo xhi z) 1 0 / c * ((z + - mu) * (z + - mu))) Fin).
    rewrite xsum_fin.
    rewrite (map_ext _ (fun z => ((z + - mu) * (z + - mu)) * (jwhere (inb xlo xhi z) 1 0 / c)))
      by (intros; ring).
    rewrite (Rsum_filter xlo xhi x (fun z => (z + - mu) * (z + - mu))).
    fold kept.
    assert (HC : 1 <= c).
    { unfold c. rewrite E. cbn [length]. rewrite S_INR. pose proof (pos_INR (length l)). lra. }
    cbn [xdiv]. rewrite (proj2 (Reqb_false c 0)) by lra.
    destruct l as [|b l].
    + assert (Hc : c = 1) by (unfold c; rewrite E; reflexivity).
      assert (Hmu : mu = a) by (unfold mu, mean; rewrite E; cbn; lra).
      cbn [xdiv]. rewrite (proj2 (Reqb_true ((c - 1) / c) 0)) by (rewrite Hc; lra).
      rewrite E. cbn [map Rsum fold_right]. rewrite Hmu.
      rewrite (proj2 (Reqb_true _ 0)) by (unfold Rdiv; ring). reflexivity.
    + assert (HC2 : 2 <= c).
      { unfold c. rewrite E. cbn [length]. rewrite !S_INR. pose proof (pos_INR (length l)). lra. }
      cbn [xdiv]. rewrite (proj2 (Reqb_false ((c - 1) / c) 0)).
      2:{ apply Rgt_not_eq. apply Rdiv_lt_0_compat; lra. }
      rewrite <- E. unfold sample_variance. fold mu. fold c.
      rewrite (map_ext (fun z => (z + - mu) * (z + - mu)) (fun z => (z - mu) * (z - mu))) by (intros; ring).
      f_equal. field. lra.
Qed.

Lemma Rsum_sq_nonneg (f : R -> R) l : 0 <= Rsum (map (fun z => f z * f z) l).
Proof. induction l as [|a l IH]; cbn; [lra|]. unfold Rsum in IH. nra. Qed.

Lemma Rsum_sq_zero (f : R -> R) l : Rsum (map (fun z => f z * f z) l) = 0 -> forall z, In z l -> f z = 0.
Proof.
  induction l as [|a l IH]; intros H z Hz; [destruct Hz|]. cbn in H.
  pose proof (Rsum_sq_nonneg f l) as HN. unfold Rsum in HN.
  assert (f a * f a = 0) by nra.
  destruct Hz as [<-|Hz]; [nra|]. apply IH; auto. unfold Rsum. nra.
Qed.

Lemma sample_variance_nonneg l : (2 <= length l)%nat -> 0 <= sample_variance l /\
  (sample_variance l = 0 <-> forall y z, In y l -> In z l -> y = z).
Proof.
  intros H. unfold sample_variance.
  assert (HC : 0 < INR (length l) - 1).
  { apply le_INR in H. cbn in H. lra. }
  pose proof (Rsum_sq_nonneg (fun z => z - mean l) l) as HN. cbn beta in HN.
  split.
  - apply Rmult_le_pos; auto. left. now apply Rinv_0_lt_compat.
  - split.
    + intros E y z Hy Hz.
      assert (E0 : Rsum (map (fun z => (z - mean l) * (z - mean l)) l) = 0).
      { apply (Rmult_eq_reg_r (/ (INR (length l) - 1))).
        - unfold Rdiv in E. rewrite E. ring.
        - apply Rinv_neq_0_compat. lra. }
      pose proof (Rsum_sq_zero (fun z => z - mean l) l E0 y Hy).
      pose proof (Rsum_sq_zero (fun z => z - mean l) l E0 z Hz). cbn beta in *. lra.
    + intros HE. destruct l as [|a l]; [cbn in H; lia|].
      assert (HR : forall z, In z (a :: l) -> z = a) by (intros; apply HE; cbn; auto).
      assert (HS : forall l, (forall z, In z l -> z = a) -> Rsum l = INR (length l) * a).
      { clear. induction l as [|b l IH]; intros H; [cbn; lra|].
        change (Rsum (b :: l)) with (b + Rsum l). cbn [length]. rewrite S_INR, IH by (intros; apply H; cbn; auto).
        rewrite (H b) by (cbn; auto). lra. }
      assert (HM : mean (a :: l) = a).
      { unfold mean. rewrite HS by auto. field. apply not_0_INR. discriminate. }
      rewrite HM.
      assert (HZ : Rsum (map (fun z => (z - a) * (z - a)) (a :: l)) = 0).
      { revert HR. generalize (a :: l). clear. induction l as [|b l IH]; intros H; [reflexivity|].
        cbn. unfold Rsum in IH. rewrite IH by (intros; apply H; cbn; auto).
        rewrite (H b) by (cbn; auto). ring. }
      rewrite HZ. unfold Rdiv. ring.
Qed.

(** ** Permutation invariance *)

Lemma filter_perm (f : R -> bool) x y : Permutation x y -> Permutation (filter f x) (filter f y).
Proof.
  induction 1; cbn.
  - auto.
  - destruct (f x); auto.
  - destruct (f x), (f y); auto. apply perm_swap.
  - etransitivity; eauto.
Qed.

Lemma Rsum_perm x y : Permutation x y -> Rsum x = Rsum y.
Proof. induction 1; cbn in *; unfold Rsum in *; lra. Qed.

Lemma mean_perm x y : Permutation x y -> mean x = mean y.
Proof. intros H. unfold mean. now rewrite (Rsum_perm x y H), (Permutation_length H). Qed.

Lemma variance_perm x y : Permutation x y -> sample_variance x = sample_variance y.
Proof.
  intros H. unfold sample_variance. rewrite (mean_perm x y H), (Permutation_length H). f_equal.
  apply Rsum_perm, Permutation_map, H.
Qed.

Lemma trimmed_perm x y p : x <> [] -> 0 <= p <= 1 / 2 -> Permutation x y ->
  trimmed_mean_and_variance x p = trimmed_mean_and_variance y p.
Proof.
  intros Hx Hp HP.
  assert (Hy : y <> []).
  { intros ->. apply Permutation_sym, Permutation_nil in HP. contradiction. }
  pose proof (percentile_quantile x p Hx ltac:(lra)) as QL.
  pose proof (percentile_quantile x (1 - p) Hx ltac:(lra)) as QH.
  pose proof (quantile_perm _ _ _ _ HP QL) as QL'. pose proof (quantile_perm _ _ _ _ HP QH) as QH'.
  rewrite (trimmed_var_spec x p _ _ Hx Hp QL QH), (trimmed_var_spec y p _ _ Hy Hp QL' QH').
  rewrite (trimmed_mean_spec x p _ _ Hx Hp QL QH), (trimmed_mean_spec y p _ _ Hy Hp QL' QH').
  set (lo := percentile x (p * 100)). set (hi := percentile x ((1 - p) * 100)).
  assert (HF : Permutation (strictly_inside lo hi x) (strictly_inside lo hi y)) by now apply filter_perm.
  destruct (strictly_inside lo hi x) as [|a k] eqn:E1.
  - apply Permutation_nil in HF. now rewrite HF.
  - destruct (strictly_inside lo hi y) as [|b k'] eqn:E2.
    + symmetry in HF. now apply Permutation_nil_cons in HF.
    + f_equal.
      * f_equal. now apply mean_perm.
      * pose proof (Permutation_length HF) as HL. destruct k, k'; try discriminate HL; auto.
        f_equal. now apply variance_perm.
Qed.

(** With p = 0 the extreme points are dropped. *)
Lemma quantile_zero x v : x <> [] -> is_quantile x 0 v <-> In v x /\ forall z, In z x -> v <= z.
Proof.
  intros Hx.
  assert (HM : exists m, In m x /\ forall z, In z x -> m <= z).
  { clear -Hx. induction x as [|a [|b x] IH]; [contradiction| |].
    - exists a. cbn. split; auto. intros z [->|[]]; lra.
    - destruct IH as (m & Hm & HM); [discriminate|].
      destruct (Rle_dec a m).
      + exists a. split; [cbn; auto|]. intros z [->|Hz]; [lra|]. specialize (HM z Hz). lra.
      + exists m. split; [cbn in *; auto|]. intros z [->|Hz]; [lra|auto]. }
  assert (HQ : forall v, is_quantile x 0 v -> In v x /\ forall z, In z x -> v <= z).
  { clear v. intros v (s & i & w & P & S & E & C).
    rewrite Rmult_0_l in E. pose proof (pos_INR i).
    destruct C as [[W N]|[W _]]; [|lra].
    assert (i = 0%nat) by (apply INR_eq; cbn; lra). subst i.
    destruct s as [|a s]; [discriminate|]. injection N as ->.
    inversion S as [|? ? S' F]; subst. rewrite Forall_forall in F. split.
    - apply (Permutation_in _ (Permutation_sym P)). cbn; auto.
    - intros z Hz. apply (Permutation_in _ P) in Hz. destruct Hz as [->|Hz]; [lra|auto]. }
  split; [apply HQ|]. intros [Hv Hmin].
  pose proof (percentile_quantile x 0 Hx ltac:(lra)) as Q0.
  destruct (HQ _ Q0) as [I0 M0].
  replace v with (percentile x (0 * 100)); auto.
  apply Rle_antisym; auto.
Qed.

Lemma quantile_one x v : x <> [] -> In v x -> (forall z, In z x -> z <= v) -> is_quantile x 1 v.
Proof.
  intros Hx Hv HM. set (s := sort_R x).
  assert (HL : length s = length x) by (apply Permutation_length, Permutation_sym, sort_perm).
  assert (Hx1 : (1 <= length x)%nat) by (destruct x; [contradiction|cbn; lia]).
  exists s, (length x - 1)%nat, 0. split; [apply sort_perm|]. split; [apply sort_sorted|].
  split; [lra|]. left. split; [reflexivity|].
  rewrite (nth_error_nth' s 0) by lia. f_equal.
  assert (HI : In v s) by (apply (Permutation_in _ (sort_perm x)); auto).
  apply Rle_antisym.
  - apply HM. apply (Permutation_in _ (Permutation_sym (sort_perm x))). apply nth_In. fold s. lia.
  - assert (HS : forall l, StronglySorted Rle l -> forall z, In z l -> z <= nth (length l - 1) l 0).
    { clear. induction 1 as [|a l HS IH HF]; intros z Hz; [destruct Hz|].
      rewrite Forall_forall in HF. destruct l as [|b l].
      - destruct Hz as [->|[]]. cbn. lra.
      - change (length (a :: b :: l) - 1)%nat with (S (length l)).
        change (nth (S (length l)) (a :: b :: l) 0) with (nth (length l) (b :: l) 0).
        change (length (b :: l) - 1)%nat with (length l - 0)%nat in IH. rewrite Nat.sub_0_r in IH.
        destruct Hz as [->|Hz]; [|auto].
        apply HF. apply nth_In. cbn; lia. }
    rewrite <- HL. apply HS; auto. apply sort_sorted.
Qed.

Lemma trimmed_constant x p c : x <> [] -> 0 <= p < 1 / 2 ->
  (forall z, In z x -> z = c) -> trimmed_mean x p = NaN.
Proof.
  intros Hx Hp HC.
  pose proof (percentile_quantile x p Hx ltac:(lra)) as QL.
  pose proof (percentile_quantile x (1 - p) Hx ltac:(lra)) as QH.
  assert (HQ : forall q v, is_quantile x q v -> v = c).
  { intros q v (s & i & w & P & _ & _ & C).
    assert (HS : forall k z, nth_error s k = Some z -> z = c).
    { intros k z Hz. apply HC. apply (Permutation_in _ (Permutation_sym P)). eapply nth_error_In; eauto. }
    destruct C as [[_ N]|[_ (a & b & A & B & ->)]]; [eauto|].
    rewrite (HS _ _ A), (HS _ _ B). lra. }
  rewrite (trimmed_mean_spec x p _ _ Hx ltac:(lra) QL QH).
  destruct (strictly_inside _ _ x) as [|a l] eqn:E; [reflexivity|].
  exfalso.
  assert (HI : In a (strictly_inside (percentile x (p * 100)) (percentile x ((1 - p) * 100)) x))
    by (rewrite E; cbn; auto).
  apply strictly_inside_In in HI. rewrite (HQ _ _ QL) in HI. pose proof (HC a ltac:(tauto)). lra.
Qed.

Lemma p_zero_not_mean : exists x, trimmed_mean x 0 = Fin 3 /\ mean x = 4.
Proof.
  exists [1; 2; 4; 9].
  assert (Hx : [1; 2; 4; 9] <> []) by discriminate.
  assert (QL : is_quantile [1; 2; 4; 9] 0 1).
  { apply quantile_zero; auto. split; [cbn; auto|].
    intros z [<-|[<-|[<-|[<-|[]]]]]; lra. }
  assert (QH : is_quantile [1; 2; 4; 9] (1 - 0) 9).
  { rewrite Rminus_0_r. apply quantile_one; auto; [cbn; auto|].
    intros z [<-|[<-|[<-|[<-|[]]]]]; lra. }
  rewrite (trimmed_mean_spec _ 0 _ _ Hx ltac:(lra) QL QH).
  assert (HS : strictly_inside 1 9 [1; 2; 4; 9] = [2; 4]).
  { unfold strictly_inside. cbn [filter].
    destruct (Rlt_dec 1 1); [lra|]. destruct (Rlt_dec 1 2); [|lra]. destruct (Rlt_dec 2 9); [|lra].
    destruct (Rlt_dec 1 4); [|lra]. destruct (Rlt_dec 4 9); [|lra].
    destruct (Rlt_dec 1 9); [|lra]. destruct (Rlt_dec 9 9); [lra|]. reflexivity. }
  rewrite HS. unfold mean, Rsum. cbn [fold_right length]. split; [f_equal|]; cbn [INR]; lra.
Qed.
