(** The outlier mask for negative it_min. *)

From Coq Require Import Reals String Ascii List ZArith Bool Arith Lia Lra Permutation Sorted.
From Verif Require Import Model_Num Model_Base Model_Kernels Model_Utils Model_Adam Model_Fitter Model_Data
  RealAux Spec_Kernels Spec_Utils Spec_Fitter Spec_Data Proofs_Trim Proofs_Fitter Proofs_Data Proofs_Data2 Proofs_Data3 Proofs_Data4.
Import ListNotations.
Local Open Scope R_scope.

Definition wrap (n : nat) (it : Z) : nat := Z.to_nat (if (it <? 0)%Z then Z.of_nat n + it else it).

Lemma column_wrap a it : (- Z.of_nat (width a) <= it < Z.of_nat (width a))%Z ->
  column_z a it = column_z a (Z.of_nat (wrap (width a) it)) /\ (wrap (width a) it < width a)%nat.
Proof.
  intros H. unfold wrap. destruct (Z.ltb_spec it 0) as [L|L].
  - split; [|lia]. unfold column_z. cbv zeta. destruct (Z.ltb_spec it 0); [|lia].
    rewrite Z2Nat.id by lia. destruct (Z.ltb_spec (Z.of_nat (width a) + it) 0); [lia|reflexivity].
  - split; [|lia]. now rewrite Z2Nat.id by lia.
Qed.

Lemma fold_wrap s lim z : forall its m, (forall it, In it its -> (- Z.of_nat (width s) <= it < Z.of_nat (width s))%Z) ->
  fold_res (clean_step s lim z) m its = fold_res (clean_step s lim z) m (map Z.of_nat (map (wrap (width s)) its)).
Proof.
  induction its as [|it its IH]; intros m H; [reflexivity|]. cbn [map fold_res].
  assert (E : clean_step s lim z m it = clean_step s lim z m (Z.of_nat (wrap (width s) it))).
  { unfold clean_step. now rewrite (proj1 (column_wrap s it (H it (or_introl eq_refl)))). }
  rewrite E. destruct (clean_step s lim z m (Z.of_nat (wrap (width s) it))); [|reflexivity]. cbn [bind]. apply IH. intros j Hj. apply H. now right.
Qed.

Lemma zrange_In lo hi z : In z (zrange lo hi) <-> (lo <= z < hi)%Z.
Proof.
  unfold zrange. rewrite in_map_iff. split.
  - intros (k & <- & Hk). apply in_seq in Hk. lia.
  - intros H. exists (Z.to_nat (z - lo)). split; [lia|]. apply in_seq. lia.
Qed.

Lemma last_column n t logmp x : rectangular n t -> (0 < n)%nat -> In x (shifted_column t logmp (n - 1)) -> x = logmp.
Proof.
  intros Hr Hn H. unfold shifted_column in H. apply in_map_iff in H. destruct H as (r & <- & Hin).
  rewrite last_nth, (Hr r Hin). lra.
Qed.

Lemma clean_mask_negative n t logmp lim z it_min : rectangular n t -> 0 <= lim < 1 / 2 -> (- Z.of_nat n <= it_min < 0)%Z ->
  get_clean_sample_mask (table n t) (Fin logmp) it_min lim (Fin z) = Ok (repeat false (length t)).
Proof.
  intros Hr Hl Hi. destruct n as [|n]; [lia|]. unfold get_clean_sample_mask. cbn [width table rows2].
  fold (table (S n) t). rewrite map_length. rewrite fold_wrap.
  2: { intros it Hit. apply zrange_In in Hit. cbn [width rescale_last table]. lia. }
  cbn [width rescale_last table]. fold (table (S n) t).
  destruct (fold_its (S n) t logmp lim z Hr Hl (map (wrap (S n)) (zrange it_min (Z.of_nat (S n) - 1))) (repeat true (length t))) as (mask & E & L & H).
  - apply repeat_length.
  - intros j Hj. apply in_map_iff in Hj. destruct Hj as (it & <- & Hit). apply zrange_In in Hit. unfold wrap. destruct (Z.ltb_spec it 0); lia.
  - etransitivity; [exact E|]. f_equal. apply nth_ext with (d := false) (d' := false); [now rewrite repeat_length|].
    intros i Hlt. rewrite (nth_repeat false). destruct (nth i mask false) eqn:B; [|reflexivity]. exfalso.
    assert (Hm : nth_error mask i = Some true) by (rewrite <- B; now apply nth_error_nth').
    apply H in Hm. destruct Hm as [_ Hm]. specialize (Hm n). assert (In n (map (wrap (S n)) (zrange it_min (Z.of_nat (S n) - 1)))).
    { apply in_map_iff. exists (-1)%Z. split; [unfold wrap; cbn [Z.ltb Z.compare]; lia|]. apply zrange_In. lia. }
    refine (no_spread_not_inlier t logmp lim z i n logmp ltac:(lra) _ (Hm H0)).
    intros x Hx. replace n with (S n - 1)%nat in Hx by lia. exact (last_column (S n) t logmp x Hr ltac:(lia) Hx).
Qed.

Lemma clean_mask_out_of_range a logmp lim z it_min : (0 < width a)%nat -> (it_min < - Z.of_nat (width a))%Z ->
  get_clean_sample_mask a logmp it_min lim z = Err IndexError.
Proof.
  intros Hw Hi. unfold get_clean_sample_mask. destruct (width a) as [|n] eqn:Ew; [lia|].
  assert (F : exists l, zrange it_min (Z.of_nat (S n) - 1) = it_min :: l).
  { unfold zrange. destruct (Z.to_nat (Z.of_nat (S n) - 1 - it_min)) as [|m] eqn:E; [lia|]. cbn [seq map]. eexists. f_equal. lia. }
  destruct F as [l ->]. cbn [fold_res].
  assert (C : column_z (rescale_last a logmp) it_min = Err IndexError).
  { unfold column_z. cbv zeta. cbn [width rescale_last]. rewrite Ew. destruct (Z.ltb_spec it_min 0); [|lia].
    destruct (Z.leb_spec 0 (Z.of_nat (S n) + it_min)); [lia|]. reflexivity. }
  unfold clean_step. rewrite C. reflexivity.
Qed.
