(** get_cholesky_from_params. *)

From Coq Require Import Reals Lra Lia List Arith ZArith.
From Verif Require Import Model_Num Model_Base Model_Kernels Model_Utils.
Import ListNotations.
Local Open Scope nat_scope.

Lemma combine_map {A B C} (f : A -> B) (g : A -> C) l :
  combine (map f l) (map g l) = map (fun x => (f x, g x)) l.
Proof. induction l; cbn; congruence. Qed.

Fixpoint psum (f : nat -> Z) (s m : nat) : Z :=
  match m with 0 => 0%Z | S m' => (f s + psum f (S s) m')%Z end.

Lemma psum_snoc f m : forall s, psum f s (S m) = (psum f s m + f (s + m)%nat)%Z.
Proof.
  induction m as [|m IH]; intros s.
  - cbn. rewrite Nat.add_0_r. lia.
  - change (psum f s (S (S m))) with (f s + psum f (S s) (S m))%Z. rewrite IH. cbn.
    replace (s + S m) with (S (s + m)) by lia. lia.
Qed.

Lemma cumsum_nth f m : forall s acc k, k < m ->
  nth_error (cumsum_from acc (map f (seq s m))) k = Some (acc + psum f s (S k))%Z.
Proof.
  induction m as [|m IH]; intros s acc k Hk; [lia|].
  cbn [seq map cumsum_from]. destruct k as [|k].
  - cbn. f_equal. lia.
  - cbn [nth_error]. rewrite IH by lia. f_equal.
    change (psum f s (S (S k))) with (f s + psum f (S s) (S k))%Z. lia.
Qed.

Lemma cumsum_length l : forall acc, length (cumsum_from acc l) = length l.
Proof. induction l; cbn; auto. Qed.

Lemma nth_error_ext {A} (l l' : list A) : length l = length l' ->
  (forall k, k < length l -> nth_error l k = nth_error l' k) -> l = l'.
Proof.
  revert l'. induction l as [|a l IH]; intros [|b l'] HL H; try discriminate; auto.
  cbn in HL. f_equal.
  - specialize (H 0 ltac:(cbn; lia)). cbn in H. congruence.
  - apply IH; [lia|]. intros k Hk. apply (H (S k)). cbn; lia.
Qed.

Lemma nth_error_seq_lt k m : k < m -> nth_error (seq 0 m) k = Some k.
Proof.
  intros H. rewrite (nth_error_nth' _ 0) by (rewrite seq_length; lia).
  now rewrite seq_nth.
Qed.

Lemma cumsum_map f m :
  cumsum_from 0 (map f (seq 0 m)) = map (fun k => psum f 0 (S k)) (seq 0 m).
Proof.
  apply nth_error_ext.
  - now rewrite cumsum_length, !map_length.
  - intros k Hk. rewrite cumsum_length, map_length, seq_length in Hk.
    rewrite cumsum_nth by auto. rewrite (map_nth_error _ k (seq 0 m) (nth_error_seq_lt _ _ Hk)).
    f_equal; lia.
Qed.

(** 1 strictly below the diagonal. *)
Definition lower (n k : nat) : Z := if Nat.ltb (fcol n k) (frow n k) then 1%Z else 0%Z.

Lemma chol_indx_map n :
  chol_indx n = map (fun k =>
    ((if Nat.eqb (frow n k) (fcol n k) then Z.of_nat (frow n k) else 0)
     + ((psum (lower n) 0 (S k) * lower n k + Z.of_nat n) * lower n k - 1) * lower n k)%Z)
    (seq 0 (n * n)).
Proof.
  unfold chol_indx.
  assert (HL : map (fun ue : Z * Z => Z.abs (fst ue * (snd ue - 1))%Z)
      (combine (map (fun k => if Nat.leb (fcol n k) (frow n k) then 1%Z else 0%Z) (seq 0 (n * n)))
               (map (fun k => if Nat.eqb (frow n k) (fcol n k) then 1%Z else 0%Z) (seq 0 (n * n))))
    = map (lower n) (seq 0 (n * n))).
  { rewrite combine_map, map_map. apply map_ext. intros k. unfold lower. cbn [fst snd].
    destruct (Nat.leb_spec (fcol n k) (frow n k)); destruct (Nat.eqb_spec (frow n k) (fcol n k));
      destruct (Nat.ltb_spec (fcol n k) (frow n k)); try lia; reflexivity. }
  rewrite HL, cumsum_map, !combine_map, map_map, combine_map, map_map, combine_map, map_map.
  reflexivity.
Qed.

Lemma psum_app f a b : forall s, psum f s (a + b) = (psum f s a + psum f (s + a)%nat b)%Z.
Proof.
  induction a as [|a IH]; intros s; cbn [psum Nat.add].
  - now rewrite Nat.add_0_r.
  - rewrite IH. replace (S s + a) with (s + S a) by lia. lia.
Qed.

Lemma frow_eq n i j : j < n -> frow n (i * n + j) = i.
Proof. intros H. unfold frow. rewrite Nat.div_add_l by lia. rewrite Nat.div_small; lia. Qed.
Lemma fcol_eq n i j : j < n -> fcol n (i * n + j) = j.
Proof.
  intros H. unfold fcol. rewrite Nat.add_comm, Nat.mod_add by lia. now apply Nat.mod_small.
Qed.

Lemma row_sum n i j : j <= n -> psum (lower n) (i * n) j = Z.of_nat (Nat.min i j).
Proof.
  induction j as [|j IH]; intros H.
  - cbn. rewrite Nat.min_0_r. reflexivity.
  - rewrite psum_snoc, IH by lia. unfold lower. rewrite frow_eq, fcol_eq by lia.
    destruct (Nat.ltb_spec j i); lia.
Qed.

Lemma rows_sum n i : i <= n -> (2 * psum (lower n) 0 (i * n) = Z.of_nat i * (Z.of_nat i - 1))%Z.
Proof.
  induction i as [|i IH]; intros H; [reflexivity|].
  replace (S i * n) with (i * n + n) by lia. rewrite psum_app. rewrite Nat.add_0_l. rewrite row_sum by lia.
  specialize (IH ltac:(lia)). rewrite Z.mul_add_distr_l, IH. rewrite Nat.min_l by lia. lia.
Qed.

Definition tri (i : nat) : nat := i * (i - 1) / 2.
Lemma tri_double i : 2 * tri i = i * (i - 1).
Proof.
  unfold tri. destruct (Nat.Even_or_Odd (i * (i - 1))) as [[k E]|[k E]].
  - rewrite E. rewrite (Nat.mul_comm 2 k), Nat.div_mul by lia. lia.
  - exfalso. destruct (Nat.Even_or_Odd i) as [[q Q]|[q Q]].
    + assert (i * (i - 1) = 2 * (q * (i - 1))) by nia. lia.
    + assert (i * (i - 1) = 2 * (i * q)) by nia. lia.
Qed.

Lemma chol_indx_nth n i j : i < n -> j < n ->
  nth_error (chol_indx n) (i * n + j)
  = Some (Z.of_nat (if Nat.eqb i j then i else if Nat.ltb j i then n + tri i + j else 0)).
Proof.
  intros Hi Hj. assert (HK : i * n + j < n * n) by nia.
  rewrite chol_indx_map.
  rewrite (map_nth_error _ _ _ (nth_error_seq_lt _ _ HK)). f_equal.
  unfold lower at 2 3 4. rewrite frow_eq, fcol_eq by auto.
  destruct (Nat.eqb_spec i j) as [E|E]; destruct (Nat.ltb_spec j i) as [L|L]; try lia.
  replace (S (i * n + j)) with (i * n + S j) by lia.
  rewrite psum_app. rewrite Nat.add_0_l. rewrite row_sum by lia. rewrite Nat.min_r by lia.
  pose proof (rows_sum n i ltac:(lia)). pose proof (tri_double i).
  assert (Z.of_nat i * (Z.of_nat i - 1) = Z.of_nat (i * (i - 1)))%Z.
  { rewrite Nat2Z.inj_mul, Nat2Z.inj_sub by lia. reflexivity. }
  lia.
Qed.

Lemma chol_indx_length n : length (chol_indx n) = n * n.
Proof. rewrite chol_indx_map, map_length, seq_length. reflexivity. Qed.

Lemma chol_ndim_spec m n : n * (n + 1) <= 2 * m < (n + 1) * (n + 2) -> chol_ndim m = n.
Proof.
  intros [H1 H2]. unfold chol_ndim.
  assert (HS : 2 * n + 1 <= Nat.sqrt (8 * m + 1) < 2 * n + 3).
  { destruct (Nat.sqrt_spec (8 * m + 1) ltac:(lia)) as [S1 S2]. nia. }
  assert (HD : (Nat.sqrt (8 * m + 1) - 1) / 2 = n); [|exact HD].
  symmetry. apply (Nat.div_unique _ 2 n (Nat.sqrt (8 * m + 1) - 1 - 2 * n)); lia.
Qed.

Lemma chol_entry params n i j :
  n * (n + 1) <= 2 * length params < (n + 1) * (n + 2) -> i < n -> j < n ->
  fst (get_cholesky_from_params params) = n /\
  length (snd (get_cholesky_from_params params)) = n * n /\
  exists v, nth_error (snd (get_cholesky_from_params params)) (i * n + j) = Some (Some v) /\
    (j = i -> nth_error params i = Some v) /\
    (j < i -> nth_error params (n + tri i + j) = Some v) /\
    (i < j -> v = 0%R).
Proof.
  intros HM Hi Hj. unfold get_cholesky_from_params. rewrite (chol_ndim_spec _ n HM).
  cbn [fst snd]. split; [reflexivity|].
  split.
  { rewrite map_length, combine_length, !map_length, chol_indx_length, seq_length. lia. }
  assert (HK : i * n + j < n * n) by nia.
  set (q := if Nat.eqb i j then i else if Nat.ltb j i then n + tri i + j else 0).
  assert (HQ : q < length params).
  { unfold q. pose proof (tri_double i). destruct (Nat.eqb_spec i j); [nia|].
    destruct (Nat.ltb_spec j i); [|nia]. nia. }
  destruct (nth_error params q) as [v|] eqn:EV.
  2: { exfalso. apply nth_error_None in EV. lia. }
  assert (HG : gather params (Z.of_nat q) = Some v).
  { unfold gather. rewrite Nat2Z.id, Nat.min_l by lia. exact EV. }
  exists (v * (if Nat.leb j i then 1 else 0))%R.
  assert (HC : nth_error (combine (map (gather params) (chol_indx n))
      (map (fun k => if Nat.leb (fcol n k) (frow n k) then 1%R else 0%R) (seq 0 (n * n)))) (i * n + j)
    = Some (Some v, if Nat.leb j i then 1%R else 0%R)).
  { assert (HA : nth_error (map (gather params) (chol_indx n)) (i * n + j) = Some (Some v)).
    { rewrite nth_error_map, chol_indx_nth by auto. cbn [option_map]. fold q. now rewrite HG. }
    assert (HB : nth_error (map (fun k => if Nat.leb (fcol n k) (frow n k) then 1%R else 0%R)
        (seq 0 (n * n))) (i * n + j) = Some (if Nat.leb j i then 1%R else 0%R)).
    { rewrite nth_error_map, nth_error_seq_lt by auto. cbn [option_map].
      now rewrite frow_eq, fcol_eq by auto. }
    revert HA HB. generalize (i * n + j). generalize (map (gather params) (chol_indx n)).
    generalize (map (fun k => if Nat.leb (fcol n k) (frow n k) then 1%R else 0%R) (seq 0 (n * n))).
    clear. intros l2 l1. revert l2. induction l1 as [|a l1 IH]; intros [|b l2] k HA HB;
      destruct k; cbn in *; try discriminate; auto; congruence. }
  rewrite nth_error_map, HC. cbn [option_map fst snd].
  split; [reflexivity|]. unfold q in EV. repeat split.
  - intros ->. rewrite Nat.eqb_refl in EV. rewrite Nat.leb_refl. rewrite EV. f_equal. lra.
  - intros H. destruct (Nat.eqb_spec i j); [lia|]. destruct (Nat.ltb_spec j i); [|lia].
    rewrite (proj2 (Nat.leb_le j i)) by lia. rewrite EV. f_equal. lra.
  - intros H. rewrite (proj2 (Nat.leb_gt j i)) by lia. lra.
Qed.

(** The positions used are each of 0 .. n(n+1)/2-1 exactly once. *)
Definition pos (n i j : nat) : nat := if Nat.eqb i j then i else n + tri i + j.

Lemma pos_inj n i j i' j' : j <= i -> i < n -> j' <= i' -> i' < n ->
  pos n i j = pos n i' j' -> i = i' /\ j = j'.
Proof.
  intros H1 H2 H3 H4. unfold pos. pose proof (tri_double i). pose proof (tri_double i').
  destruct (Nat.eqb_spec i j); destruct (Nat.eqb_spec i' j'); intros E; try lia.
  assert (i = i'); [|lia].
  destruct (Nat.lt_total i i') as [L|[L|L]]; auto; exfalso.
  - assert (tri i + i <= tri i') by nia. lia.
  - assert (tri i' + i' <= tri i) by nia. lia.
Qed.

Lemma pos_surj n q : 2 * q < n * (n + 1) -> exists i j, j <= i /\ i < n /\ pos n i j = q.
Proof.
  intros H. destruct (Nat.lt_ge_cases q n) as [L|L].
  - exists q, q. unfold pos. rewrite Nat.eqb_refl. lia.
  - remember (q - n) as r eqn:Er.
    assert (HR : 2 * r < n * (n - 1)) by nia.
    assert (HE : forall m, 2 * r < m * (m - 1) -> exists i j, j < i /\ i < m /\ tri i + j = r).
    { induction m as [|m IH]; intros Hm; [lia|].
      destruct (Nat.lt_ge_cases (2 * r) (m * (m - 1))) as [L'|L'].
      - destruct (IH L') as (i & j & A & B & C). exists i, j. repeat split; auto.
      - exists m, (r - tri m). pose proof (tri_double m). repeat split; try lia; nia. }
    destruct (HE n HR) as (i & j & A & B & C). exists i, j.
    unfold pos. destruct (Nat.eqb_spec i j); [lia|]. repeat split; lia.
Qed.

Lemma pos_unique n q : 2 * q < n * (n + 1) ->
  exists i j, (j <= i /\ i < n /\
    q = if Nat.eqb i j then i else n + i * (i - 1) / 2 + j) /\
  forall i' j', j' <= i' -> i' < n ->
    q = (if Nat.eqb i' j' then i' else n + i' * (i' - 1) / 2 + j') -> i' = i /\ j' = j.
Proof.
  intros H. destruct (pos_surj n q H) as (i & j & H1 & H2 & H3).
  exists i, j. split; [unfold pos, tri in H3; auto|].
  intros i' j' H1' H2' H3'. apply (pos_inj n); auto. rewrite H3. symmetry. exact H3'.
Qed.

Lemma chol_injective n (p q : list R) : 2 * length p = n * (n + 1) -> length q = length p ->
  get_cholesky_from_params p = get_cholesky_from_params q -> p = q.
Proof.
  intros Hp Hq E. apply nth_error_ext; [auto|]. intros k Hk.
  destruct (pos_surj n k ltac:(lia)) as (i & j & H1 & H2 & H3).
  destruct (chol_entry p n i j ltac:(lia) H2 ltac:(lia)) as (_ & _ & v & V & D & L & _).
  destruct (chol_entry q n i j ltac:(lia) H2 ltac:(lia)) as (_ & _ & v' & V' & D' & L' & _).
  rewrite E, V' in V. injection V as ->. subst k. unfold pos.
  destruct (Nat.eqb_spec i j) as [->|N].
  - now rewrite D, D'.
  - rewrite L, L' by lia. reflexivity.
Qed.

Lemma chol_ndim_firstn (params : list R) n :
  n * (n + 1) <= 2 * length params < (n + 1) * (n + 2) ->
  2 * length (firstn (n * (n + 1) / 2) params) = n * (n + 1).
Proof.
  intros H. rewrite firstn_length. pose proof (tri_double (n + 1)) as HT.
  unfold tri in HT. replace ((n + 1) * (n + 1 - 1)) with (n * (n + 1)) in HT by nia.
  rewrite Nat.min_l; lia.
Qed.

Lemma chol_surplus (params : list R) n :
  n * (n + 1) <= 2 * length params < (n + 1) * (n + 2) ->
  get_cholesky_from_params params = get_cholesky_from_params (firstn (n * (n + 1) / 2) params).
Proof.
  intros H. pose proof (chol_ndim_firstn params n H) as HF.
  set (ps := firstn (n * (n + 1) / 2) params) in *.
  unfold get_cholesky_from_params.
  rewrite (chol_ndim_spec _ n H). rewrite (chol_ndim_spec (length ps) n) by lia.
  f_equal. f_equal. f_equal. apply nth_error_ext; [now rewrite !map_length|].
  intros k Hk. rewrite map_length, chol_indx_length in Hk. rewrite !nth_error_map.
  assert (Hn : 0 < n) by nia.
  pose proof (Nat.div_mod k n ltac:(lia)) as HD.
  assert (Hi : k / n < n) by (apply Nat.div_lt_upper_bound; lia).
  assert (Hj : k mod n < n) by (apply Nat.mod_upper_bound; lia).
  replace k with (k / n * n + k mod n) by lia.
  rewrite chol_indx_nth by auto. cbn [option_map]. f_equal.
  set (i := k / n) in *. set (j := k mod n) in *.
  set (q := if Nat.eqb i j then i else if Nat.ltb j i then n + tri i + j else 0).
  assert (HQ : q < length ps).
  { unfold q. pose proof (tri_double i). destruct (Nat.eqb_spec i j); [nia|].
    destruct (Nat.ltb_spec j i); [|nia]. nia. }
  assert (HP : length ps <= length params) by (unfold ps; rewrite firstn_length; lia).
  unfold gather. rewrite Nat2Z.id, !Nat.min_l by lia.
  unfold ps. rewrite <- (firstn_skipn (n * (n + 1) / 2) params) at 1.
  apply nth_error_app1. exact HQ.
Qed.
