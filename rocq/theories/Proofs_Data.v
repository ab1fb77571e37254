(** Lemmas about the data loaders and the measurement of target data. *)

From Coq Require Import Reals String List ZArith Bool Arith Lia Lra Permutation Sorted.
From Verif Require Import Model_Num Model_Base Model_Kernels Model_Utils Model_Adam Model_Fitter Model_Data
  RealAux Spec_Kernels Spec_Utils Spec_Fitter Spec_Data Proofs_Trim Proofs_Fitter.
Import ListNotations.
Local Open Scope R_scope.

(** ** array_split *)

Lemma list_sum_cons s ss : list_sum (s :: ss) = (s + list_sum ss)%nat.
Proof. reflexivity. Qed.
Opaque list_sum.

Lemma sizes_length n k : (0 < k)%nat -> length (section_sizes n k) = k.
Proof.
  intros Hk. unfold section_sizes. rewrite app_length, !repeat_length.
  pose proof (Nat.mod_upper_bound n k ltac:(lia)). lia.
Qed.
Lemma sizes_sum n k : (0 < k)%nat -> list_sum (section_sizes n k) = n.
Proof.
  intros Hk. unfold section_sizes. rewrite list_sum_app.
  assert (R : forall a b, list_sum (repeat a b) = (a * b)%nat) by (intros a b; induction b; [change (0 = a * 0)%nat; lia|cbn [repeat]; rewrite list_sum_cons; lia]).
  rewrite !R. pose proof (Nat.mod_upper_bound n k ltac:(lia)). pose proof (Nat.div_mod n k ltac:(lia)). nia.
Qed.
Lemma sizes_In n k s : In s (section_sizes n k) -> (n / k <= s <= n / k + 1)%nat.
Proof. unfold section_sizes. intros H. apply in_app_or in H. destruct H as [H|H]; apply repeat_spec in H; lia. Qed.

Lemma div_points_nth sizes : forall acc i, (i <= length sizes)%nat ->
  nth i (div_points acc sizes) 0%nat = (acc + list_sum (firstn i sizes))%nat.
Proof.
  induction sizes as [|s ss IH]; intros acc i Hi; cbn in Hi.
  - replace i with 0%nat by lia. cbn. change (list_sum []) with 0%nat. lia.
  - destruct i as [|i]; cbn; [change (list_sum []) with 0%nat; lia|]. rewrite IH by lia. rewrite list_sum_cons. lia.
Qed.

(** The slices between cumulative sums, as a recursion. *)
Fixpoint chop {A} (sizes : list nat) (l : list A) : list (list A) :=
  match sizes with [] => [] | s :: ss => firstn s l :: chop ss (skipn s l) end.

Lemma chop_slices {A} (l : list A) sizes : forall acc,
  map (fun i => slice (nth i (div_points acc sizes) 0%nat) (nth (i + 1) (div_points acc sizes) 0%nat) l)
    (seq 0 (length sizes)) = chop sizes (skipn acc l).
Proof.
  induction sizes as [|s ss IH]; intros acc; [reflexivity|].
  cbn [length seq map chop]. f_equal.
  - cbn [nth Nat.add div_points]. replace (nth 0 (div_points (acc + s) ss) 0%nat) with (acc + s)%nat by (destruct ss; reflexivity).
    unfold slice. now replace (acc + s - acc)%nat with s by lia.
  - rewrite <- seq_shift, map_map. cbn [nth Nat.add div_points]. rewrite IH.
    f_equal. clear. revert l. induction acc; intros l; [reflexivity|]. destruct l; cbn; [now destruct s|apply IHacc].
Qed.

Lemma array_split_chop {A} (l : list A) k : (0 < k)%nat -> array_split l k = Ok (chop (section_sizes (length l) k) l).
Proof.
  intros Hk. destruct k as [|k]; [lia|]. unfold array_split. f_equal.
  pose proof (chop_slices l (section_sizes (length l) (S k)) 0) as C. rewrite sizes_length in C by lia. exact C.
Qed.

Lemma chop_concat {A} sizes : forall l : list A, length l = list_sum sizes -> List.concat (chop sizes l) = l.
Proof.
  induction sizes as [|s ss IH]; intros l H; [now destruct l|]. rewrite list_sum_cons in H. cbn.
  rewrite IH; [apply firstn_skipn|]. rewrite skipn_length. lia.
Qed.
Lemma chop_length {A} sizes : forall l : list A, length (chop sizes l) = length sizes.
Proof. induction sizes; intros; cbn; congruence. Qed.
Lemma chop_lengths {A} sizes : forall l : list A, length l = list_sum sizes -> map (@length A) (chop sizes l) = sizes.
Proof.
  induction sizes as [|s ss IH]; intros l H; [reflexivity|]. rewrite list_sum_cons in H. cbn.
  rewrite IH by (rewrite skipn_length; lia). rewrite firstn_length. f_equal. lia.
Qed.

Lemma array_split_partition {A} (l : list A) k : (0 < k)%nat ->
  exists parts, array_split l k = Ok parts /\ balanced_partition l k parts.
Proof.
  intros Hk. exists (chop (section_sizes (length l) k) l). split; [now apply array_split_chop|].
  refine (conj _ (conj _ _)).
  - rewrite chop_length. now apply sizes_length.
  - apply chop_concat. symmetry. now apply sizes_sum.
  - intros a b Ha Hb.
    assert (L : forall c, In c (chop (section_sizes (length l) k) l) -> (length l / k <= length c <= length l / k + 1)%nat).
    { intros c Hc. apply (sizes_In (length l) k). rewrite <- (chop_lengths (section_sizes (length l) k) l) by (symmetry; now apply sizes_sum).
      now apply in_map. }
    pose proof (L a Ha). pose proof (L b Hb). lia.
Qed.

(** Bigger pieces come first, so the sizes are determined. *)
Lemma array_split_nth {A} (l : list A) k parts r p : (0 < k)%nat ->
  array_split l k = Ok parts -> nth_error parts r = Some p ->
  length p = (if r <? length l mod k then length l / k + 1 else length l / k)%nat.
Proof.
  intros Hk E H. rewrite array_split_chop in E by exact Hk. injection E as <-.
  assert (L : nth_error (section_sizes (length l) k) r = Some (length p)).
  { rewrite <- (chop_lengths (section_sizes (length l) k) l) by (symmetry; now apply sizes_sum). now apply map_nth_error. }
  pose proof (proj1 (nth_error_Some (section_sizes (length l) k) r) ltac:(congruence)) as B. rewrite sizes_length in B by exact Hk.
  unfold section_sizes in L. destruct (r <? length l mod k)%nat eqn:C.
  - apply Nat.ltb_lt in C. rewrite nth_error_app1 in L by (rewrite repeat_length; exact C).
    apply nth_error_In, repeat_spec in L. exact L.
  - apply Nat.ltb_ge in C. rewrite nth_error_app2 in L by (rewrite repeat_length; exact C).
    apply nth_error_In, repeat_spec in L. exact L.
Qed.

(** ** Selecting rows by index *)

Lemma chop_map {A B} (f : A -> B) sizes : forall l, chop sizes (map f l) = map (map f) (chop sizes l).
Proof. induction sizes as [|s ss IH]; intros l; cbn; [reflexivity|]. now rewrite firstn_map, skipn_map, IH. Qed.

Lemma take_ok {A} (l : list A) idx : (forall i, In i idx -> (i < length l)%nat) ->
  exists r, take l idx = Ok r /\ map Some r = map (nth_error l) idx.
Proof.
  induction idx as [|i idx IH]; intros H; cbn; [exists []; auto|].
  destruct (nth_error l i) as [a|] eqn:E; [|apply nth_error_None in E; specialize (H i (or_introl eq_refl)); lia].
  destruct IH as (r & -> & Er); [intros j Hj; apply H; now right|]. exists (a :: r). cbn. now rewrite Er.
Qed.

(** [x[np.array_split(np.arange(n), k)[rank]]] is piece [rank] of x. *)
Lemma take_split {A} (l : list A) k idx r : (0 < k)%nat -> nth_error (chop (section_sizes (length l) k) (seq 0 (length l))) r = Some idx ->
  exists p, nth_error (chop (section_sizes (length l) k) l) r = Some p /\ take l idx = Ok p.
Proof.
  intros Hk H.
  assert (E : map Some l = map (nth_error l) (seq 0 (length l))).
  { clear. apply nth_ext with (d := None) (d' := None); [now rewrite !map_length, seq_length|].
    intros n Hn. rewrite map_length in Hn. rewrite (nth_indep (map (nth_error l) (seq 0 (length l))) None (nth_error l 0%nat)) by (now rewrite map_length, seq_length).
    rewrite map_nth, seq_nth by exact Hn. cbn. destruct (nth_error l n) as [a|] eqn:E.
    - apply (map_nth_error Some) in E. now apply nth_error_nth.
    - apply nth_error_None in E. lia. }
  pose proof (chop_length (section_sizes (length l) k) l) as L1. pose proof (chop_length (section_sizes (length l) k) (seq 0 (length l))) as L2.
  assert (Hr : (r < length (section_sizes (length l) k))%nat) by (rewrite <- L2; apply nth_error_Some; congruence).
  destruct (nth_error (chop (section_sizes (length l) k) l) r) as [p|] eqn:Ep; [|apply nth_error_None in Ep; lia].
  exists p. split; [reflexivity|].
  assert (B : forall i, In i idx -> (i < length l)%nat).
  { intros i Hi. assert (In i (List.concat (chop (section_sizes (length l) k) (seq 0 (length l))))).
    { apply in_concat. exists idx. split; [eapply nth_error_In; exact H|exact Hi]. }
    rewrite chop_concat in H0 by (rewrite seq_length; symmetry; now apply sizes_sum). apply in_seq in H0. lia. }
  destruct (take_ok l idx B) as (q & -> & Q). f_equal.
  assert (M : map Some p = map (nth_error l) idx).
  { apply (map_nth_error (map Some)) in Ep. apply (map_nth_error (map (nth_error l))) in H.
    rewrite <- (chop_map Some) in Ep. rewrite <- (chop_map (nth_error l)) in H. rewrite E in Ep. congruence. }
  rewrite <- Q in M. clear -M. revert p M. induction q as [|a q IH]; intros [|b p] M; try discriminate; [reflexivity|].
  cbn in M. injection M as -> M. f_equal. now apply IH.
Qed.

Lemma take_out_of_range {A} (l : list A) idx : (exists i, In i idx /\ (length l <= i)%nat) -> take l idx = Err IndexError.
Proof.
  intros (i & Hi & B). induction idx as [|j idx IH]; [easy|]. cbn. destruct Hi as [->|Hi].
  - apply nth_error_None in B. now rewrite B.
  - destruct (nth_error l j); [|reflexivity]. now rewrite (IH Hi).
Qed.

(** ** Running maximum *)

Lemma xle_refl x : x <> NaN -> xle x x.
Proof. destruct x; cbn; intros H; try tauto; lra. Qed.
Lemma xle_trans x y z : xle x y -> xle y z -> xle x z.
Proof. destruct x, y, z; cbn; try tauto; lra. Qed.
Lemma xmax_spec x y : x <> NaN -> y <> NaN -> (xmax x y = x \/ xmax x y = y) /\ xle x (xmax x y) /\ xle y (xmax x y).
Proof.
  intros Hx Hy. destruct x as [a| | |], y as [b| | |]; try congruence; try (cbn; split; [auto|split; first [exact I|apply Rle_refl]]); cbn [xmax xltb].
  unfold Rltb. destruct (Rlt_dec a b); cbn; (split; [auto|split; lra]).
Qed.
Lemma xmax_nan x y : x = NaN \/ y = NaN -> xmax x y = NaN.
Proof. intros [-> | ->]; [reflexivity|now destruct x]. Qed.

Lemma greatest_snoc l y x : greatest l y -> greatest (l ++ [x]) (xmax y x).
Proof.
  intros [[H ->]|(H & Hy & Hm)].
  - left. split; [apply in_or_app; now left|reflexivity].
  - destruct x as [r| | |] eqn:Ex; try (rewrite <- Ex; assert (Hx : x <> NaN) by (subst; discriminate)).
    4: { left. split; [apply in_or_app; right; now left|apply xmax_nan; now right]. }
    all: assert (Hy' : y <> NaN) by (intros ->; tauto); destruct (xmax_spec y x Hy' Hx) as (H1 & H2 & H3);
      right; (split; [intros K; apply in_app_or in K; destruct K as [K|[K|[]]]; [tauto|congruence]|]);
      (split; [destruct H1 as [-> | ->]; apply in_or_app; [now left|right; now left]|]);
      intros z Hz; apply in_app_or in Hz; destruct Hz as [Hz|[<-|[]]]; [eapply xle_trans; [apply Hm; exact Hz|exact H2]|exact H3].
Qed.

Lemma greatest_unique l y z : greatest l y -> greatest l z -> y = z.
Proof.
  intros [[H ->]|(H & Hy & Hm)] [[H' ->]|(H' & Hz & Hn)]; try tauto.
  pose proof (Hm z Hz) as A. pose proof (Hn y Hy) as B. clear -A B.
  destruct y, z; cbn in *; try tauto. f_equal. lra.
Qed.

Lemma accumulate_greatest l : forall pre acc, pre <> [] -> greatest pre acc -> forall j, (j < length l)%nat ->
  exists y, nth_error (accumulate_from acc l) j = Some y /\ greatest (pre ++ firstn (S j) l) y.
Proof.
  induction l as [|x l IH]; intros pre acc Hp Hg j Hj; cbn in Hj; [lia|].
  cbn [accumulate_from]. cbv zeta. pose proof (greatest_snoc pre acc x Hg) as G. destruct j as [|j].
  - cbn. eauto.
  - destruct (IH (pre ++ [x]) (xmax acc x) ltac:(now destruct pre) G j ltac:(lia)) as (y & E & Hy).
    exists y. split; [exact E|]. rewrite <- app_assoc in Hy. exact Hy.
Qed.

Lemma accumulate_from_length l : forall acc, length (accumulate_from acc l) = length l.
Proof. induction l; intros; cbn; auto. Qed.
Lemma accumulate_length l : length (maximum_accumulate l) = length l.
Proof. destruct l; cbn; [reflexivity|]. now rewrite accumulate_from_length. Qed.

Lemma maximum_accumulate_greatest l j : (j < length l)%nat ->
  exists y, nth_error (maximum_accumulate l) j = Some y /\ greatest (firstn (S j) l) y.
Proof.
  destruct l as [|x l]; cbn [length]; [lia|]. intros Hj. cbn [maximum_accumulate]. destruct j as [|j].
  - exists x. split; [reflexivity|]. cbn [firstn]. destruct (match x with NaN => true | _ => false end) eqn:E.
    + left. destruct x; try discriminate. split; [now left|reflexivity].
    + right. assert (x <> NaN) by (intros ->; discriminate). split; [intros [K|[]]; congruence|].
      split; [now left|]. intros z [<-|[]]. now apply xle_refl.
  - assert (G : greatest [x] x).
    { destruct (match x with NaN => true | _ => false end) eqn:E.
      - left. destruct x; try discriminate. split; [now left|reflexivity].
      - right. assert (x <> NaN) by (intros ->; discriminate). split; [intros [K|[]]; congruence|].
        split; [now left|]. intros z [<-|[]]. now apply xle_refl. }
    destruct (accumulate_greatest l [x] x ltac:(discriminate) G j ltac:(lia)) as (y & E & Hy). exists y. split; [exact E|exact Hy].
Qed.

Lemma accumulate_unique l r : length r = length l ->
  (forall j, (j < length l)%nat -> exists y, nth_error r j = Some y /\ greatest (firstn (S j) l) y) -> r = maximum_accumulate l.
Proof.
  intros HL H. apply nth_ext with (d := NaN) (d' := NaN); [now rewrite accumulate_length|].
  intros n Hn. rewrite HL in Hn. destruct (H n Hn) as (y & E1 & G1). destruct (maximum_accumulate_greatest l n Hn) as (z & E2 & G2).
  rewrite (nth_error_nth _ _ _ E1), (nth_error_nth _ _ _ E2). eapply greatest_unique; eassumption.
Qed.

Lemma firstn_In_le {A} (l : list A) i j x : (i <= j)%nat -> In x (firstn i l) -> In x (firstn j l).
Proof.
  intros H Hx. apply In_nth_error in Hx. destruct Hx as (n & Hn).
  assert (n < i)%nat by (assert (n < length (firstn i l))%nat by (apply nth_error_Some; congruence); rewrite firstn_length in *; lia).
  apply nth_error_In with n. rewrite <- (firstn_skipn i (firstn j l)), firstn_firstn, Nat.min_l by lia.
  rewrite nth_error_app1; [exact Hn|]. apply nth_error_Some. congruence.
Qed.
Lemma nth_error_firstn_In {A} (l : list A) j x : nth_error l j = Some x -> In x (firstn (S j) l).
Proof.
  intros H. apply nth_error_split in H. destruct H as (l1 & l2 & -> & <-).
  rewrite firstn_app, firstn_all2 by lia. replace (S (length l1) - length l1)%nat with 1%nat by lia.
  apply in_or_app. right. now left.
Qed.

Lemma accumulate_nondecreasing l i j x y : (i <= j)%nat ->
  nth_error (maximum_accumulate l) i = Some x -> nth_error (maximum_accumulate l) j = Some y -> y = NaN \/ xle x y.
Proof.
  intros Hij Hx Hy. assert (Bj : (j < length l)%nat) by (rewrite <- accumulate_length; apply nth_error_Some; congruence).
  destruct (maximum_accumulate_greatest l i ltac:(lia)) as (x' & E & G). rewrite Hx in E. injection E as <-.
  destruct (maximum_accumulate_greatest l j Bj) as (y' & E & G'). rewrite Hy in E. injection E as <-.
  destruct G' as [[_ ->]|(N & Iy & M)]; [now left|]. right. destruct G as [[K _]|(_ & Ix & _)].
  - exfalso. apply N. eapply firstn_In_le; [|exact K]. lia.
  - apply M. eapply firstn_In_le; [|exact Ix]. lia.
Qed.

Lemma accumulate_idempotent l : maximum_accumulate (maximum_accumulate l) = maximum_accumulate l.
Proof.
  symmetry. apply accumulate_unique; [reflexivity|]. rewrite accumulate_length. intros j Hj.
  destruct (maximum_accumulate_greatest l j Hj) as (y & E & G). exists y. split; [exact E|].
  assert (Iy : In y (firstn (S j) (maximum_accumulate l))) by now apply nth_error_firstn_In.
  destruct (match y with NaN => true | _ => false end) eqn:C.
  { left. destruct y; try discriminate. split; [exact Iy|reflexivity]. }
  assert (Ny : y <> NaN) by (intros ->; discriminate). right.
  assert (M : forall x, In x (firstn (S j) (maximum_accumulate l)) -> xle x y).
  { intros x Hx. apply In_nth_error in Hx. destruct Hx as (n & Hn).
    assert (Bn : (n < S j)%nat) by (assert (n < length (firstn (S j) (maximum_accumulate l)))%nat by (apply nth_error_Some; congruence); rewrite firstn_length in *; lia).
    assert (Hn' : nth_error (maximum_accumulate l) n = Some x).
    { rewrite <- (firstn_skipn (S j) (maximum_accumulate l)). rewrite nth_error_app1; [exact Hn|]. apply nth_error_Some. congruence. }
    destruct (accumulate_nondecreasing l n j x y ltac:(lia) Hn' E) as [K|K]; [tauto|exact K]. }
  refine (conj _ (conj Iy M)). intros K. specialize (M _ K). destruct y; cbn in M; tauto.
Qed.

(** Without NaN, the accumulated history is the history itself when that never
    decreases. *)
Lemma accumulate_fixed l : ~ In NaN l ->
  (forall i j x y, (i <= j)%nat -> nth_error l i = Some x -> nth_error l j = Some y -> xle x y) -> maximum_accumulate l = l.
Proof.
  intros HN H. symmetry. apply accumulate_unique; [reflexivity|]. intros j Hj.
  destruct (nth_error l j) as [y|] eqn:E; [|apply nth_error_None in E; lia]. exists y. split; [reflexivity|]. right.
  refine (conj _ (conj _ _)).
  - intros K. apply HN. rewrite <- (firstn_skipn (S j) l). apply in_or_app. now left.
  - now apply nth_error_firstn_In.
  - intros x Hx. apply In_nth_error in Hx. destruct Hx as (n & Hn).
    assert (Bn : (n < S j)%nat) by (assert (n < length (firstn (S j) l))%nat by (apply nth_error_Some; congruence); rewrite firstn_length in *; lia).
    assert (Hn' : nth_error l n = Some x).
    { rewrite <- (firstn_skipn (S j) l). rewrite nth_error_app1; [exact Hn|]. apply nth_error_Some. congruence. }
    eapply H; [|exact Hn'|exact E]. lia.
Qed.
