(** Table interpolation over the reals. *)

From Coq Require Import Reals List Bool Arith Lia Lra Sorting.Sorted.
From Verif Require Import Model_Num Model_Base Model_Kernels Model_PopBase.
Import ListNotations.
Local Open Scope R_scope.

Lemma Rleb_true x y : Rleb x y = true <-> x <= y.
Proof. unfold Rleb. destruct (Rle_dec x y); split; intros; try discriminate; auto; lra. Qed.
Lemma Rleb_false x y : Rleb x y = false <-> y < x.
Proof. unfold Rleb. destruct (Rle_dec x y); split; intros; try discriminate; auto; lra. Qed.
Lemma Rltb_true x y : Rltb x y = true <-> x < y.
Proof. unfold Rltb. destruct (Rlt_dec x y); split; intros; try discriminate; auto; lra. Qed.
Lemma Rltb_false x y : Rltb x y = false <-> y <= x.
Proof. unfold Rltb. destruct (Rlt_dec x y); split; intros; try discriminate; auto; lra. Qed.

Lemma nmaximum_R (x y : R) : nmaximum x y = Rmax x y.
Proof.
  unfold nmaximum. cbn. unfold Rmax, Rleb. destruct (Rle_dec y x), (Rle_dec x y); lra.
Qed.
Lemma nminimum_R (x y : R) : nminimum x y = Rmin x y.
Proof.
  unfold nminimum. cbn. unfold Rmin, Rleb. destruct (Rle_dec x y), (Rle_dec y x); lra.
Qed.
Lemma clip_R (x lo hi : R) : clip x lo hi = Rmin (Rmax x lo) hi.
Proof. unfold clip. now rewrite nmaximum_R, nminimum_R. Qed.
Lemma clip_min_R (x lo : R) : clip_min x lo = Rmax x lo.
Proof. apply nmaximum_R. Qed.

Lemma clip_range (x lo hi : R) : lo <= hi -> lo <= clip x lo hi <= hi.
Proof. intros H. rewrite clip_R. unfold Rmin, Rmax. repeat destruct Rle_dec; lra. Qed.
Lemma clip_mono (x y lo hi : R) : x <= y -> clip x lo hi <= clip y lo hi.
Proof. intros H. rewrite !clip_R. unfold Rmin, Rmax. repeat destruct Rle_dec; lra. Qed.
Lemma clip_id (x lo hi : R) : lo <= x <= hi -> clip x lo hi = x.
Proof. intros H. rewrite clip_R. unfold Rmin, Rmax. repeat destruct Rle_dec; lra. Qed.
Lemma clip_min_le (x lo : R) : x <= clip_min x lo /\ lo <= clip_min x lo.
Proof. rewrite clip_min_R. split; [apply Rmax_l|apply Rmax_r]. Qed.

(** ** Sorted lists *)

Notation sorted := (StronglySorted Rle).

Lemma sorted_nth l i j d : sorted l -> (i <= j < length l)%nat -> nth i l d <= nth j l d.
Proof.
  intros H. revert i j. induction H as [|a l H IH HF]; cbn; intros i j Hij; [lia|].
  destruct i as [|i], j as [|j]; try lia; try lra.
  - rewrite Forall_forall in HF. apply HF. apply nth_In. lia.
  - apply IH. lia.
Qed.

Lemma count_spec l x d : sorted l -> forall k, (k < length l)%nat ->
  (nth k l d <= x <-> (k < searchsorted_right l x)%nat).
Proof.
  unfold searchsorted_right. intros H. induction H as [|a l H IH HF]; intros k Hk; cbn in Hk; [lia|].
  cbn [filter]. change (nleb a x) with (Rleb a x). destruct (Rleb a x) eqn:E.
  - apply Rleb_true in E. cbn [length]. destruct k as [|k]; cbn [nth]; [split; intros; [lia|exact E]|].
    rewrite IH by lia. lia.
  - apply Rleb_false in E. rewrite Forall_forall in HF.
    replace (filter (fun v => nleb v x) l) with (@nil R).
    + cbn [length]. split; [|lia]. intros Hle. exfalso.
      assert (a <= nth k (a :: l) d).
      { destruct k; cbn; [lra|]. apply HF, nth_In. lia. }
      lra.
    + symmetry. clear - E HF. induction l as [|b l IH]; [reflexivity|]. cbn [filter].
      change (nleb b x) with (Rleb b x).
      destruct (Rleb b x) eqn:Eb; [|apply IH; intros; apply HF; now right].
      apply Rleb_true in Eb. specialize (HF b (or_introl eq_refl)). lra.
Qed.

Lemma count_le l (x : R) : (searchsorted_right l x <= length l)%nat.
Proof.
  unfold searchsorted_right. induction l as [|a l IH]; [cbn; lia|]. cbn [filter].
  destruct (nleb a x); cbn [length]; lia.
Qed.

Lemma nabs_R (x : R) : nabs x = Rabs x.
Proof.
  unfold nabs, jwhere. cbn. unfold Rabs. destruct (Rcase_abs x).
  - replace (Rltb x 0) with true; [cbv iota; lra|]. symmetry. apply Rltb_true. lra.
  - replace (Rltb x 0) with false; [cbv iota; lra|]. symmetry. apply Rltb_false. lra.
Qed.

Lemma INTERP_EPS_pos : 0 < (INTERP_EPS : R).
Proof. unfold INTERP_EPS. cbn -[pow]. apply Rinv_0_lt_compat. apply pow_lt. lra. Qed.

(** The value in the bracketing interval [i-1, i]. *)
Definition piece (x : R) (xp fp : list R) (i : nat) : R :=
  let df := nth i fp 0 - nth (i - 1) fp 0 in
  let dx := nth i xp 0 - nth (i - 1) xp 0 in
  if Rle_dec dx INTERP_EPS then nth (i - 1) fp 0
  else nth (i - 1) fp 0 + (x - nth (i - 1) xp 0) / dx * df.

Lemma piece_bounds x xp fp i :
  nth (i - 1) xp 0 <= x <= nth i xp 0 -> nth (i - 1) fp 0 <= nth i fp 0 ->
  nth (i - 1) fp 0 <= piece x xp fp i <= nth i fp 0.
Proof.
  intros Hx Hf. unfold piece. pose proof INTERP_EPS_pos. destruct Rle_dec as [H1|H1]; [lra|].
  set (dx := nth i xp 0 - nth (i - 1) xp 0) in *. set (df := nth i fp 0 - nth (i - 1) fp 0).
  assert (Hdx : 0 < dx) by lra. assert (Hdf : 0 <= df) by (unfold df; lra).
  assert (0 <= (x - nth (i - 1) xp 0) / dx <= 1).
  { split.
    - apply Rmult_le_pos; [lra|]. left. now apply Rinv_0_lt_compat.
    - apply Rmult_le_reg_r with dx; [exact Hdx|]. unfold Rdiv. rewrite Rmult_assoc, Rinv_l by lra. unfold dx in *. lra. }
  split.
  - assert (0 <= (x - nth (i - 1) xp 0) / dx * df) by (apply Rmult_le_pos; lra). lra.
  - assert ((x - nth (i - 1) xp 0) / dx * df <= 1 * df) by (apply Rmult_le_compat_r; lra). unfold df in *. lra.
Qed.

Lemma piece_mono x y xp fp i : x <= y -> nth (i - 1) fp 0 <= nth i fp 0 ->
  piece x xp fp i <= piece y xp fp i.
Proof.
  intros Hx Hf. unfold piece. pose proof INTERP_EPS_pos. destruct Rle_dec as [H1|H1]; [lra|].
  apply Rplus_le_compat_l. apply Rmult_le_compat_r; [lra|]. apply Rmult_le_compat_r; [|lra].
  left. apply Rinv_0_lt_compat. lra.
Qed.

Definition bracket (xp : list R) (x : R) : nat :=
  Nat.min (Nat.max (searchsorted_right xp x) 1) (length xp - 1).

Lemma interp_cases x (xp fp : list R) : sorted xp -> length fp = length xp -> (2 <= length xp)%nat ->
  let n := length xp in
  (x < nth 0 xp 0 /\ interp x xp fp = nth 0 fp 0) \/
  (nth (n - 1) xp 0 < x /\ interp x xp fp = nth (n - 1) fp 0) \/
  (nth 0 xp 0 <= x <= nth (n - 1) xp 0 /\ interp x xp fp = piece x xp fp (bracket xp x) /\
   (1 <= bracket xp x <= n - 1)%nat /\
   nth (bracket xp x - 1) xp 0 <= x <= nth (bracket xp x) xp 0).
Proof.
  intros Hs HL Hn n.
  assert (H0 : nth 0 xp 0 <= nth (n - 1) xp 0) by (apply sorted_nth; [exact Hs|unfold n; lia]).
  unfold interp. fold (bracket xp x). cbv zeta. rewrite HL. fold n.
  unfold jwhere at 1. change (nltb (nth (n - 1) xp #0%num) x) with (Rltb (nth (n - 1) xp 0) x).
  destruct (Rltb (nth (n - 1) xp 0) x) eqn:E1.
  - apply Rltb_true in E1. right. left. split; [exact E1|reflexivity].
  - apply Rltb_false in E1. unfold jwhere at 1. change (nltb x (nth 0 xp #0%num)) with (Rltb x (nth 0 xp 0)).
    destruct (Rltb x (nth 0 xp 0)) eqn:E2.
    + apply Rltb_true in E2. left. split; [exact E2|reflexivity].
    + apply Rltb_false in E2. right. right. split; [lra|].
      assert (Hb : (1 <= bracket xp x <= n - 1)%nat) by (unfold bracket; fold n; lia).
      assert (Hin : nth (bracket xp x - 1) xp 0 <= x <= nth (bracket xp x) xp 0).
      { assert (C0 : (0 < searchsorted_right xp x)%nat) by (apply (count_spec xp x 0 Hs 0%nat); [lia|lra]).
        pose proof (count_le xp x) as C1. fold n in C1.
        split.
        - apply (count_spec xp x 0 Hs); [lia|]. unfold bracket. fold n. lia.
        - destruct (Nat.eq_dec (searchsorted_right xp x) n) as [En|En].
          + replace (bracket xp x) with (n - 1)%nat by (unfold bracket; fold n; lia). lra.
          + replace (bracket xp x) with (searchsorted_right xp x) by (unfold bracket; fold n; lia).
            destruct (Rle_dec x (nth (searchsorted_right xp x) xp 0)) as [|Hne]; [assumption|].
            exfalso. assert (searchsorted_right xp x < searchsorted_right xp x)%nat; [|lia].
            apply (count_spec xp x 0 Hs); [lia|]. lra. }
      split; [|split; [exact Hb|exact Hin]].
      unfold jwhere. set (i := bracket xp x) in *.
      change (nleb (nabs (nsub (nth i xp #0%num) (nth (i - 1) xp #0%num))) INTERP_EPS)
        with (Rleb (nabs (nth i xp 0 - nth (i - 1) xp 0)) INTERP_EPS).
      rewrite nabs_R.
      assert (Hdx : 0 <= nth i xp 0 - nth (i - 1) xp 0) by lra.
      rewrite Rabs_right by lra. unfold piece. cbv zeta.
      destruct (Rle_dec (nth i xp 0 - nth (i - 1) xp 0) INTERP_EPS) as [H1|H1].
      * replace (Rleb _ _) with true by (symmetry; now apply Rleb_true). reflexivity.
      * replace (Rleb _ _) with false by (symmetry; apply Rleb_false; lra). reflexivity.
Qed.

Lemma interp_range x (xp fp : list R) : sorted xp -> sorted fp -> length fp = length xp ->
  (2 <= length xp)%nat ->
  nth 0 fp 0 <= interp x xp fp <= nth (length fp - 1) fp 0.
Proof.
  intros Hx Hf HL Hn.
  assert (G : forall i j, (i <= j < length fp)%nat -> nth i fp 0 <= nth j fp 0) by (intros; now apply sorted_nth).
  assert (G0 := G 0%nat (length fp - 1)%nat ltac:(lia)).
  destruct (interp_cases x xp fp Hx HL Hn) as [[_ ->]|[[_ ->]|(Hr & -> & Hb & Hi)]].
  - lra.
  - rewrite HL in *. lra.
  - pose proof (G (bracket xp x - 1)%nat (bracket xp x) ltac:(lia)) as G1.
    pose proof (piece_bounds x xp fp _ Hi G1) as G2.
    pose proof (G 0%nat (bracket xp x - 1)%nat ltac:(lia)).
    pose proof (G (bracket xp x) (length fp - 1)%nat ltac:(lia)). lra.
Qed.

Lemma bracket_mono xp (x y : R) : x <= y -> (bracket xp x <= bracket xp y)%nat.
Proof.
  intros H. assert (searchsorted_right xp x <= searchsorted_right xp y)%nat; [|unfold bracket; lia].
  unfold searchsorted_right. induction xp as [|a l IH]; [cbn; lia|]. cbn [filter].
  change (nleb a x) with (Rleb a x). change (nleb a y) with (Rleb a y).
  destruct (Rleb a x) eqn:E1, (Rleb a y) eqn:E2; cbn [length]; try lia.
  apply Rleb_true in E1. apply Rleb_false in E2. lra.
Qed.

Lemma interp_mono x y (xp fp : list R) : sorted xp -> sorted fp -> length fp = length xp ->
  (2 <= length xp)%nat -> x <= y -> interp x xp fp <= interp y xp fp.
Proof.
  intros Hx Hf HL Hn Hxy.
  assert (G : forall i j, (i <= j < length fp)%nat -> nth i fp 0 <= nth j fp 0) by (intros; now apply sorted_nth).
  pose proof (interp_range x xp fp Hx Hf HL Hn) as Rx. pose proof (interp_range y xp fp Hx Hf HL Hn) as Ry.
  rewrite HL in *.
  destruct (interp_cases x xp fp Hx HL Hn) as [[_ Ex]|[[Lx _]|(Hr & Ex & Hb & Hi)]]; [lra| |].
  - destruct (interp_cases y xp fp Hx HL Hn) as [[Ly _]|[[_ Ey]|(Hr & _)]]; [|lra|lra].
    pose proof (sorted_nth xp 0 (length xp - 1) 0 Hx ltac:(lia)). lra.
  - destruct (interp_cases y xp fp Hx HL Hn) as [[Ly _]|[[_ Ey]|(Hr' & Ey & Hb' & Hi')]]; [lra|lra|].
    rewrite Ex, Ey. pose proof (bracket_mono xp x y Hxy) as Hm.
    destruct (Nat.eq_dec (bracket xp x) (bracket xp y)) as [E|E].
    + rewrite <- E. apply piece_mono; [exact Hxy|]. apply G. lia.
    + pose proof (G (bracket xp x - 1)%nat (bracket xp x) ltac:(lia)) as G1.
      pose proof (G (bracket xp y - 1)%nat (bracket xp y) ltac:(lia)) as G2.
      pose proof (piece_bounds x xp fp _ Hi G1). pose proof (piece_bounds y xp fp _ Hi' G2).
      pose proof (G (bracket xp x) (bracket xp y - 1)%nat ltac:(lia)). lra.
Qed.

Lemma interp_bracket x (xp fp : list R) : sorted xp -> sorted fp -> length fp = length xp ->
  (2 <= length xp)%nat -> nth 0 xp 0 <= x <= nth (length xp - 1) xp 0 ->
  exists i, (1 <= i <= length xp - 1)%nat /\ nth (i - 1) xp 0 <= x <= nth i xp 0 /\
    nth (i - 1) fp 0 <= interp x xp fp <= nth i fp 0.
Proof.
  intros Hx Hf HL Hn Hr.
  destruct (interp_cases x xp fp Hx HL Hn) as [[L _]|[[L _]|(_ & E & Hb & Hi)]]; [lra|lra|].
  exists (bracket xp x). split; [exact Hb|]. split; [exact Hi|]. rewrite E.
  apply piece_bounds; [exact Hi|]. apply sorted_nth; [exact Hf|lia].
Qed.

(** ** linspace *)

Lemma sorted_map_seq (f : nat -> R) a n : (forall i j, (i <= j)%nat -> f i <= f j) -> sorted (map f (seq a n)).
Proof.
  intros H. revert a. induction n as [|n IH]; intros a; cbn; constructor; [apply IH|].
  apply Forall_forall. intros y Hy. apply in_map_iff in Hy as (i & <- & Hi). apply in_seq in Hi. apply H. lia.
Qed.

Lemma sorted_map (f : R -> R) l : (forall x y, x <= y -> f x <= f y) -> sorted l -> sorted (map f l).
Proof.
  intros H. induction 1 as [|a l Hs IH HF]; cbn; constructor; [exact IH|].
  apply Forall_forall. intros y Hy. apply in_map_iff in Hy as (x & <- & Hx). apply H.
  rewrite Forall_forall in HF. auto.
Qed.

Lemma linspace_length (a b : R) n : length (linspace a b n) = n.
Proof. unfold linspace. now rewrite map_length, seq_length. Qed.

Lemma linspace_nth (a b : R) n i d : (i < n)%nat ->
  nth i (linspace a b n) d = a + (b - a) * (INR i / INR (n - 1)).
Proof.
  intros H. unfold linspace.
  rewrite nth_indep with (d' := (fun i => let s := (INR i / INR (n - 1)) in a * (1 - s) + b * s) 0%nat)
    by now rewrite map_length, seq_length.
  cbn [nconst nadd nsub nmul Num_R]. rewrite (map_nth (fun i => let s := (INR i / INR (n - 1)) in a * (1 - s) + b * s)).
  rewrite seq_nth by exact H. cbn [plus]. cbv zeta. ring.
Qed.

Lemma linspace_sorted (a b : R) n : a <= b -> sorted (linspace a b n).
Proof.
  intros H. unfold linspace. apply sorted_map_seq. intros i j Hij. cbn.
  assert (INR i / INR (n - 1) <= INR j / INR (n - 1)).
  { unfold Rdiv. destruct (Nat.eq_dec (n - 1) 0) as [->|Hn].
    - cbn. rewrite Rinv_0. lra.
    - apply Rmult_le_compat_r; [left; apply Rinv_0_lt_compat, lt_0_INR; lia|]. now apply le_INR. }
  nra.
Qed.

Lemma linspace_first (a b : R) n d : (1 <= n)%nat -> nth 0 (linspace a b n) d = a.
Proof. intros H. rewrite linspace_nth by lia. cbn. unfold Rdiv. ring. Qed.

Lemma linspace_last (a b : R) n d : (2 <= n)%nat -> nth (n - 1) (linspace a b n) d = b.
Proof.
  intros H. rewrite linspace_nth by lia. field. apply not_0_INR. lia.
Qed.

Lemma linspace_step (a b : R) n i d : (1 <= i < n)%nat ->
  nth i (linspace a b n) d - nth (i - 1) (linspace a b n) d = (b - a) / INR (n - 1).
Proof.
  intros H. rewrite !linspace_nth by lia. rewrite (minus_INR i 1) by lia. cbn [INR]. field.
  apply not_0_INR. lia.
Qed.

(** Inverting an increasing function by its table: the result is within one
    table step of the exact preimage. *)
Lemma table_inverts (F : R -> R) (a b : R) n x : (2 <= n)%nat -> a <= b ->
  (forall y z, a <= y -> y < z -> z <= b -> F y < F z) -> a <= x <= b ->
  let tab := linspace a b n in
  let r := interp (F x) (map F tab) tab in
  a <= r <= b /\ Rabs (r - x) <= (b - a) / INR (n - 1).
Proof.
  intros Hn Hab HF Hx tab r.
  assert (Ht : forall i, (i < n)%nat -> a <= nth i tab 0 <= b).
  { intros i Hi. pose proof (linspace_sorted a b n Hab) as S. split.
    - rewrite <- (linspace_first a b n 0) at 1 by lia. apply sorted_nth; [exact S|]. unfold tab; rewrite linspace_length. lia.
    - rewrite <- (linspace_last a b n 0) by lia. apply sorted_nth; [exact S|]. unfold tab; rewrite linspace_length. lia. }
  assert (HFle : forall y z, a <= y -> y <= z -> z <= b -> F y <= F z).
  { intros y z H1 H2 H3. destruct (Req_dec y z) as [->|Hne]; [lra|]. left. apply HF; lra. }
  assert (HFinv : forall y z, a <= y <= b -> a <= z <= b -> F y <= F z -> y <= z).
  { intros y z Hy Hz H. destruct (Rle_dec y z); [assumption|]. exfalso. pose proof (HF z y ltac:(lra) ltac:(lra) ltac:(lra)). lra. }
  assert (Hst : sorted tab) by now apply linspace_sorted.
  assert (Hlen : length tab = n) by apply linspace_length.
  assert (Hn0 : forall i, (i < n)%nat -> nth i (map F tab) 0 = F (nth i tab 0)).
  { intros i Hi. rewrite nth_indep with (d' := F 0) by (rewrite map_length; lia). apply map_nth. }
  assert (HsF : sorted (map F tab)).
  { assert (Hall : Forall (fun y => a <= y <= b) tab).
    { apply Forall_forall. intros y Hy. apply (In_nth _ _ 0) in Hy as (i & Hi & <-). apply Ht. lia. }
    clear - Hst Hall HFle. induction Hst as [|c l Hs IH HFo]; cbn; [constructor|].
    inversion Hall as [|? ? Hc Hl]; subst. constructor; [auto|].
    apply Forall_forall. intros y Hy. apply in_map_iff in Hy as (z & <- & Hz).
    rewrite Forall_forall in HFo, Hl. specialize (HFo z Hz). specialize (Hl z Hz). apply HFle; lra. }
  assert (HLF : length tab = length (map F tab)) by now rewrite map_length.
  assert (Hn2 : (2 <= length (map F tab))%nat) by (rewrite map_length; lia).
  destruct (interp_bracket (F x) (map F tab) tab HsF Hst HLF Hn2) as (i & Hi & Hxp & Hfp).
  { rewrite map_length, Hlen. rewrite !Hn0 by lia.
    unfold tab. rewrite linspace_first, linspace_last by lia. split; apply HFle; lra. }
  rewrite map_length, Hlen in Hi. rewrite !Hn0 in Hxp by lia.
  fold r in Hfp.
  pose proof (Ht (i - 1)%nat ltac:(lia)). pose proof (Ht i ltac:(lia)).
  pose proof (HFinv _ _ (Ht (i - 1)%nat ltac:(lia)) Hx (proj1 Hxp)).
  pose proof (HFinv _ _ Hx (Ht i ltac:(lia)) (proj2 Hxp)).
  pose proof (linspace_step a b n i 0 ltac:(lia)) as Hstep. fold tab in Hstep.
  split; [lra|]. rewrite <- Hstep. apply Rabs_le. lra.
Qed.
