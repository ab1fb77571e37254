(** Proofs about get_dt_array, get_1d_arrays and _sig_slope. *)

From Coq Require Import Reals Lra Lia List Arith ZArith Bool.
From Verif Require Import Model_Num RealAux Model_Base Model_Kernels Model_Utils Proofs_Kernels.
Import ListNotations.
Local Open Scope R_scope.

(** ** get_dt_array *)

Fixpoint mids (t : list R) : list R :=
  match t with a :: ((b :: _) as r) => (b + a) / 2 :: mids r | _ => [] end.

Fixpoint diffs (e : list R) : list R :=
  match e with a :: ((b :: _) as r) => b - a :: diffs r | _ => [] end.

Lemma mids_length t : length (mids t) = (length t - 1)%nat.
Proof.
  induction t as [|a [|b r] IH]; try reflexivity.
  change (S (length (mids (b :: r))) = S (S (length r)) - 1)%nat. rewrite IH. cbn; lia.
Qed.

Lemma diffs_length t : length (diffs t) = (length t - 1)%nat.
Proof.
  induction t as [|a [|b r] IH]; try reflexivity.
  change (S (length (diffs (b :: r))) = S (S (length r)) - 1)%nat. rewrite IH. cbn; lia.
Qed.

Lemma mids_nth t : forall i, (S i < length t)%nat -> nth i (mids t) 0 = (nth i t 0 + nth (S i) t 0) / 2.
Proof.
  induction t as [|a [|b r] IH]; cbn [length]; intros i Hi; try lia.
  destruct i as [|i].
  - cbn. lra.
  - change (nth i (mids (b :: r)) 0 = (nth i (b :: r) 0 + nth (S i) (b :: r) 0) / 2).
    apply IH. cbn; lia.
Qed.

Lemma diffs_nth t : forall i, (S i < length t)%nat -> nth i (diffs t) 0 = nth (S i) t 0 - nth i t 0.
Proof.
  induction t as [|a [|b r] IH]; cbn [length]; intros i Hi; try lia.
  destruct i as [|i].
  - reflexivity.
  - change (nth i (diffs (b :: r)) 0 = nth (S i) (b :: r) 0 - nth i (b :: r) 0).
    apply IH. cbn; lia.
Qed.

Lemma last_cons (x y : R) l d : last (x :: y :: l) d = last (y :: l) d.
Proof. reflexivity. Qed.

Lemma dt_loop_spec rest : forall tlo ti,
  dt_loop tlo ti rest
  = (diffs (tlo :: mids (ti :: rest)), last (tlo :: mids (ti :: rest)) 0, last (ti :: rest) 0).
Proof.
  induction rest as [|a r IH]; intros tlo ti; [reflexivity|].
  cbn [dt_loop]. rewrite IH.
  change (mids (ti :: a :: r)) with ((a + ti) / 2 :: mids (a :: r)).
  rewrite !last_cons. reflexivity.
Qed.

Lemma diffs_app e x : e <> [] -> diffs (e ++ [x]) = diffs e ++ [x - last e 0].
Proof.
  induction e as [|a [|b r] IH]; intros H; [contradiction|reflexivity|].
  change (diffs ((a :: b :: r) ++ [x])) with (b - a :: diffs ((b :: r) ++ [x])).
  rewrite IH by discriminate. reflexivity.
Qed.

Lemma get_dt_array_edges a b r :
  get_dt_array (a :: b :: r)
  = Ok (diffs (a - (b - a) / 2 :: mids (a :: b :: r)
          ++ [last (a :: b :: r) 0 + last (diffs (a - (b - a) / 2 :: mids (a :: b :: r))) 0 / 2])).
Proof.
  unfold get_dt_array. rewrite dt_loop_spec.
  set (m := mids (a :: b :: r)). set (tlo := a - (b - a) / 2).
  change (tlo :: m ++ ?x) with ((tlo :: m) ++ x).
  rewrite diffs_app by discriminate. reflexivity.
Qed.

Lemma dt_tiles t : (2 <= length t)%nat ->
  exists dt e, get_dt_array t = Ok dt /\ length dt = length t /\ length e = S (length t) /\
    (forall i, (i < length t)%nat -> nth i dt 0 = nth (S i) e 0 - nth i e 0) /\
    nth 0 e 0 = nth 0 t 0 - (nth 1 t 0 - nth 0 t 0) / 2 /\
    (forall i, (S i < length t)%nat -> nth (S i) e 0 = (nth i t 0 + nth (S i) t 0) / 2) /\
    nth (length t) e 0 = nth (length t - 1) t 0 + nth (length t - 2) dt 0 / 2.
Proof.
  intros H. destruct t as [|a [|b r]]; cbn [length] in H; try lia.
  rewrite get_dt_array_edges.
  set (t := a :: b :: r). set (tlo := a - (b - a) / 2).
  set (x := last t 0 + last (diffs (tlo :: mids t)) 0 / 2).
  assert (LM : length (mids t) = S (length r)) by (rewrite mids_length; cbn; lia).
  assert (LE : length (tlo :: mids t ++ [x]) = S (length t)).
  { cbn [length]. rewrite app_length, LM. cbn; lia. }
  exists (diffs (tlo :: mids t ++ [x])), (tlo :: mids t ++ [x]).
  split; [reflexivity|].
  split; [rewrite diffs_length, LE; cbn; lia|]. split; [exact LE|].
  split; [intros i Hi; apply diffs_nth; lia|].
  split; [reflexivity|].
  split.
  - intros i Hi. cbn [nth]. rewrite app_nth1 by (rewrite LM; cbn in Hi; lia).
    now apply mids_nth.
  - assert (LL : forall (l : list R) , l <> [] -> last l 0 = nth (length l - 1) l 0).
    { clear. induction l as [|u [|v w] IH]; intros H; [contradiction|reflexivity|].
      rewrite last_cons, IH by discriminate. cbn [length]. 
      replace (S (S (length w)) - 1)%nat with (S (S (length w) - 1)) by lia. reflexivity. }
    replace (length t) with (S (length (mids t))) at 1 by (rewrite LM; reflexivity).
    cbn [nth]. rewrite app_nth2 by lia. rewrite Nat.sub_diag. cbn [nth].
    assert (HX : nth (length t - 2) (diffs (tlo :: mids t ++ [x])) 0
                 = last (diffs (tlo :: mids t)) 0).
    { rewrite LL; [|unfold t; cbn; discriminate].
      change (tlo :: mids t ++ [x]) with ((tlo :: mids t) ++ [x]).
      rewrite diffs_app by discriminate. rewrite app_nth1.
      + rewrite diffs_length. f_equal. cbn [length]. rewrite LM. cbn; lia.
      + rewrite diffs_length. cbn [length]. rewrite LM. cbn; lia. }
    rewrite HX. rewrite <- (LL t) by discriminate. reflexivity.
Qed.

Lemma nth_pair_eq (l : list R) i x : nth_error l i = Some x -> nth i l 0 = x /\ (i < length l)%nat.
Proof.
  intros H. split; [now apply nth_error_nth | apply nth_error_Some; congruence].
Qed.

(** Explicit cell widths. *)
Lemma dt_cells t dt : get_dt_array t = Ok dt ->
  (2 <= length t)%nat /\ length dt = length t /\
  nth 0 dt 0 = nth 1 t 0 - nth 0 t 0 /\
  (forall i, (0 < i)%nat -> (S i < length t)%nat ->
     nth i dt 0 = (nth (S i) t 0 - nth (i - 1) t 0) / 2) /\
  nth (length t - 1) dt 0 = (nth (length t - 1) t 0 - nth (length t - 2) t 0
                              + nth (length t - 2) dt 0) / 2.
Proof.
  intros E.
  assert (H : (2 <= length t)%nat) by (destruct t as [|a [|b r]]; try discriminate; cbn; lia).
  split; [exact H|].
  destruct (dt_tiles t H) as (dt' & e & E' & L1 & L2 & HD & H0 & HM & HL).
  rewrite E in E'. injection E' as <-.
  split; [exact L1|].
  split; [|split].
  - rewrite HD by lia. rewrite H0, HM by lia. lra.
  - intros i Hi Hi'. rewrite HD by lia. destruct i as [|i]; [lia|].
    rewrite !HM by lia. replace (S i - 1)%nat with i by lia. lra.
  - rewrite HD by lia. replace (S (length t - 1)) with (length t) by lia. rewrite HL.
    replace (length t - 1)%nat with (S (length t - 2)) by lia. rewrite HM by lia.
    replace (S (length t - 2)) with (length t - 1)%nat by lia. lra.
Qed.

Lemma dt_positive t dt : get_dt_array t = Ok dt ->
  (forall i, (S i < length t)%nat -> nth i t 0 < nth (S i) t 0) ->
  forall d, In d dt -> 0 < d.
Proof.
  intros E HI d Hd. destruct (dt_cells t dt E) as (H2 & L & C0 & CI & CL).
  apply (In_nth _ _ 0) in Hd. destruct Hd as (i & Hi & <-).
  assert (HA : forall i, (S i < length t)%nat -> 0 < nth i dt 0).
  { intros [|j] Hj.
    - rewrite C0. specialize (HI 0%nat Hj). lra.
    - rewrite CI by lia. replace (S j - 1)%nat with j by lia.
      pose proof (HI j ltac:(lia)). pose proof (HI (S j) ltac:(lia)). lra. }
  destruct (Nat.eq_dec (S i) (length t)) as [Hl|Hl]; [|apply HA; lia].
  replace i with (length t - 1)%nat by lia. rewrite CL.
  pose proof (HA (length t - 2)%nat ltac:(lia)).
  pose proof (HI (length t - 2)%nat ltac:(lia)) as HT.
  replace (S (length t - 2)) with (length t - 1)%nat in HT by lia. lra.
Qed.

Lemma dt_uniform t dt h : get_dt_array t = Ok dt ->
  (forall i, (S i < length t)%nat -> nth (S i) t 0 - nth i t 0 = h) ->
  forall d, In d dt -> d = h.
Proof.
  intros E HI d Hd. destruct (dt_cells t dt E) as (H2 & L & C0 & CI & CL).
  apply (In_nth _ _ 0) in Hd. destruct Hd as (i & Hi & <-).
  assert (HA : forall i, (S i < length t)%nat -> nth i dt 0 = h).
  { intros [|j] Hj.
    - rewrite C0. exact (HI 0%nat Hj).
    - rewrite CI by lia. replace (S j - 1)%nat with j by lia.
      pose proof (HI j ltac:(lia)). pose proof (HI (S j) ltac:(lia)). lra. }
  destruct (Nat.eq_dec (S i) (length t)) as [Hl|Hl]; [|apply HA; lia].
  replace i with (length t - 1)%nat by lia. rewrite CL.
  pose proof (HA (length t - 2)%nat ltac:(lia)).
  pose proof (HI (length t - 2)%nat ltac:(lia)) as HT.
  replace (S (length t - 2)) with (length t - 1)%nat in HT by lia. lra.
Qed.

Lemma dt_error t : (exists e, get_dt_array t = Err e) <-> (length t < 2)%nat.
Proof.
  destruct t as [|a [|b r]]; cbn [length].
  - split; [lia|]. eexists; reflexivity.
  - split; [lia|]. eexists; reflexivity.
  - split; [|lia]. intros [e H]. rewrite get_dt_array_edges in H. discriminate.
Qed.

(** ** get_1d_arrays *)

Lemma fold_max_ge l : forall s, (s <= fold_left Nat.max l s)%nat /\
  (forall x, In x l -> (x <= fold_left Nat.max l s)%nat) /\
  (fold_left Nat.max l s = s \/ In (fold_left Nat.max l s) l).
Proof.
  induction l as [|a l IH]; intros s; cbn [fold_left].
  - repeat split; [lia| |auto]. intros x [].
  - destruct (IH (Nat.max s a)) as (H1 & H2 & H3). repeat split.
    + lia.
    + intros x [<-|Hx]; [lia|auto].
    + destruct H3 as [H3|H3]; [|right; right; exact H3].
      destruct (Nat.max_spec s a) as [[_ E]|[_ E]]; rewrite E in *; rewrite H3; cbn; auto.
Qed.

Definition argsize (a : arg) : nat := length (atleast_1d a).

Lemma add_zeros_length n l : length l = 1%nat \/ length l = n -> length (add_zeros n l) = n.
Proof.
  intros H. destruct l as [|x [|y l]]; cbn [add_zeros].
  - rewrite map_length. cbn in *; lia.
  - rewrite map_length, repeat_length. reflexivity.
  - rewrite map_length. cbn in *; lia.
Qed.

Lemma add_zeros_nth n l i : (i < n)%nat -> length l = 1%nat \/ length l = n ->
  nth_error (add_zeros n l) i = nth_error l (if Nat.eqb (length l) 1 then 0 else i).
Proof.
  intros Hi H. destruct l as [|x [|y l]].
  - cbn in *. destruct H; subst; lia.
  - cbn [length Nat.eqb]. cbn [add_zeros nth_error].
    rewrite (map_nth_error _ i (repeat 0 n) (d := 0)); [f_equal; lra|].
    rewrite nth_error_repeat; auto.
  - cbn [length Nat.eqb]. cbn [add_zeros].
    rewrite nth_error_map. destruct (nth_error (x :: y :: l) i); cbn; [f_equal; lra|reflexivity].
Qed.

Lemma forallb_sizes ss n :
  forallb (fun k => Nat.eqb k 1 || Nat.eqb k n)%bool ss = true <-> forall k, In k ss -> k = 1%nat \/ k = n.
Proof.
  rewrite forallb_forall. split; intros H k Hk; specialize (H k Hk).
  - apply orb_true_iff in H. destruct H as [H|H]; apply Nat.eqb_eq in H; auto.
  - apply orb_true_iff. destruct H as [->| ->]; rewrite Nat.eqb_refl; auto.
Qed.

Lemma get_1d_arrays_spec args npts :
  In npts (map argsize args) -> (forall k, In k (map argsize args) -> (k <= npts)%nat) ->
  (get_1d_arrays args = Err AssertionError <->
     exists k, In k (map argsize args) /\ k <> 1%nat /\ k <> npts) /\
  (forall out, get_1d_arrays args = Ok out ->
     length out = length args /\
     forall i a, nth_error args i = Some a ->
       exists l, nth_error out i = Some l /\ length l = npts /\
         forall j, (j < npts)%nat ->
           nth_error l j = match a with
                           | Scalar x => Some x
                           | Array [x] => Some x
                           | Array v => nth_error v j
                           end) /\
  (get_1d_arrays args = Err AssertionError \/ exists out, get_1d_arrays args = Ok out).
Proof.
  intros HIn HMax.
  assert (HS : map (@length R) (map atleast_1d args) = map argsize args).
  { rewrite map_map. reflexivity. }
  assert (HE : get_1d_arrays args =
    if forallb (fun k => Nat.eqb k 1 || Nat.eqb k npts)%bool (map argsize args)
    then Ok (map (add_zeros npts) (map atleast_1d args)) else Err AssertionError).
  { unfold get_1d_arrays. rewrite HS. destruct (map argsize args) as [|s ss] eqn:ES; [destruct HIn|].
    destruct (fold_max_ge ss s) as (M1 & M2 & M3).
    replace (fold_left Nat.max ss s) with npts; [reflexivity|].
    assert (fold_left Nat.max ss s <= npts)%nat.
    { destruct M3 as [-> | M3]; apply HMax; cbn; auto. }
    destruct HIn as [<- | HIn]; [lia|]. specialize (M2 _ HIn). lia. }
  destruct (forallb _ _) eqn:EF.
  - pose proof (proj1 (forallb_sizes _ _) EF) as HF.
    split; [|split].
    + split; [rewrite HE; discriminate|]. intros (k & Hk & N1 & N2). destruct (HF k Hk); contradiction.
    + intros out Ho. rewrite HE in Ho. injection Ho as <-. rewrite !map_length.
      split; [reflexivity|]. intros i a Ha. exists (add_zeros npts (atleast_1d a)).
      assert (Hk : length (atleast_1d a) = 1%nat \/ length (atleast_1d a) = npts).
      { apply HF. change (length (atleast_1d a)) with (argsize a). apply in_map.
        eapply nth_error_In; eauto. }
      split; [now rewrite !nth_error_map, Ha|].
      split; [now apply add_zeros_length|].
      intros j Hj. rewrite add_zeros_nth by auto.
      destruct a as [x|[|x [|y v]]]; cbn [atleast_1d length Nat.eqb]; try reflexivity.
      all: try (now destruct j).
    + right. eauto.
  - split; [|split].
    + split; [|intros; exact HE]. intros _.
      destruct (existsb (fun k => negb (Nat.eqb k 1 || Nat.eqb k npts))%bool (map argsize args)) eqn:EX.
      * apply existsb_exists in EX. destruct EX as (k & Hk & Hb). exists k.
        apply negb_true_iff, orb_false_iff in Hb. destruct Hb as [B1 B2].
        apply Nat.eqb_neq in B1. apply Nat.eqb_neq in B2. auto.
      * exfalso. enough (forallb (fun k => Nat.eqb k 1 || Nat.eqb k npts)%bool (map argsize args) = true) by congruence.
        apply forallb_forall. intros k Hk.
        destruct (Nat.eqb k 1 || Nat.eqb k npts)%bool eqn:EB; auto.
        enough (existsb (fun k => negb (Nat.eqb k 1 || Nat.eqb k npts))%bool (map argsize args) = true) by congruence.
        apply existsb_exists. exists k. rewrite EB. auto.
    + intros out Ho. rewrite HE in Ho. discriminate.
    + left. exact HE.
Qed.

(** ** _sig_slope *)

Lemma sig_slope_pivot (xtp ytp x0 k lo hi : R) : sig_slope xtp xtp ytp x0 k lo hi = ytp.
Proof. unfold sig_slope. cbn -[sigmoid]. ring. Qed.

Lemma sig_slope_secant (x xtp ytp x0 k lo hi : R) : x <> xtp ->
  (sig_slope x xtp ytp x0 k lo hi - ytp) / (x - xtp) = sigmoid x x0 k lo hi.
Proof. intros H. unfold sig_slope. cbn -[sigmoid]. field. lra. Qed.

Lemma sig_slope_between (x xtp ytp x0 k lo hi : R) : x <> xtp -> lo <> hi ->
  Rmin lo hi < (sig_slope x xtp ytp x0 k lo hi - ytp) / (x - xtp) < Rmax lo hi.
Proof.
  intros H Hn. rewrite sig_slope_secant by auto.
  destruct (Rlt_le_dec lo hi) as [L|L].
  - rewrite Rmin_left, Rmax_right by lra. now apply sigmoid_between.
  - rewrite Rmin_right, Rmax_left by lra. apply sigmoid_between_desc. lra.
Qed.

Lemma get_1d_arrays_full : forall args npts,
  let size a := match a with Scalar _ => 1%nat | Array l => length l end in
  (exists a, In a args /\ size a = npts) -> (forall a, In a args -> (size a <= npts)%nat) ->
  (get_1d_arrays args = Err AssertionError <->
     exists a, In a args /\ size a <> 1%nat /\ size a <> npts) /\
  (forall out, get_1d_arrays args = Ok out ->
     length out = length args /\
     forall i a, nth_error args i = Some a ->
       exists l, nth_error out i = Some l /\ length l = npts /\
         forall j, (j < npts)%nat ->
           nth_error l j = match a with
                           | Scalar x => Some x
                           | Array [x] => Some x
                           | Array v => nth_error v j
                           end) /\
  (get_1d_arrays args = Err AssertionError \/ exists out, get_1d_arrays args = Ok out).
Proof.
  intros args npts size (a0 & H0 & E0) HM.
  assert (HS : forall a, argsize a = size a) by (intros [x|l]; reflexivity).
  destruct (get_1d_arrays_spec args npts) as (G1 & G2 & G3).
  - apply in_map_iff. exists a0. rewrite HS. auto.
  - intros k Hk. apply in_map_iff in Hk. destruct Hk as (a & <- & Ha). rewrite HS. auto.
  - split; [|split; assumption]. rewrite G1. split.
    + intros (k & Hk & K1 & K2). apply in_map_iff in Hk. destruct Hk as (a & <- & Ha).
      exists a. rewrite <- HS. auto.
    + intros (a & Ha & K1 & K2). exists (argsize a). rewrite HS. split; auto.
      rewrite <- HS. now apply in_map.
Qed.

Lemma dt_error_kind t :
  (get_dt_array t = Err IndexError <-> (length t < 2)%nat) /\
  (forall e, get_dt_array t = Err e -> e = IndexError).
Proof.
  destruct t as [|a [|b r]]; cbn [length].
  - split; [split; [lia|reflexivity]|]. cbn. congruence.
  - split; [split; [lia|reflexivity]|]. cbn. congruence.
  - rewrite get_dt_array_edges. split; [split; [discriminate|lia]|discriminate].
Qed.
