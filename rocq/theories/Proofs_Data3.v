(** Lemmas about the outlier mask and the measurement of target data. *)

From Coq Require Import Reals String List ZArith Bool Arith Lia Lra Permutation Sorted.
From Verif Require Import Model_Num Model_Base Model_Kernels Model_Utils Model_Adam Model_Fitter Model_Data
  RealAux Spec_Kernels Spec_Utils Spec_Fitter Spec_Data Proofs_Trim Proofs_Fitter Proofs_Data Proofs_Data2.
Import ListNotations.
Local Open Scope R_scope.

(** ** Means, deviations and trimming *)

Lemma INR_length_pos {A} (l : list A) : l <> [] -> 0 < INR (length l).
Proof. intros H. apply lt_0_INR. destruct l; [congruence|cbn; lia]. Qed.

Lemma xmean_fin l : l <> [] -> xmean (map Fin l) = Fin (mean l).
Proof.
  intros H. unfold xmean. rewrite xsum_fin, map_length. cbn. unfold Reqb.
  pose proof (INR_length_pos l H). destruct (Req_EM_T (INR (length l)) 0); [lra|reflexivity].
Qed.

Lemma mean_sq_nonneg (f : R -> R) l : l <> [] -> 0 <= mean (map (fun x => f x * f x) l).
Proof.
  intros H. unfold mean. rewrite map_length. apply Rmult_le_pos; [apply Rsum_sq_nonneg|].
  left. apply Rinv_0_lt_compat. now apply INR_length_pos.
Qed.

Lemma xstd_fin l : l <> [] -> xstd (map Fin l) = Fin (deviation_of l).
Proof.
  intros H. unfold xstd. rewrite xmean_fin by exact H. rewrite map_map. cbn [xsub xmul].
  rewrite <- (map_map (fun x => (x - mean l) * (x - mean l)) Fin). rewrite xmean_fin by (now destruct l).
  pose proof (mean_sq_nonneg (fun x => x - mean l) l H) as P. unfold deviation_of. cbn [xsqrt]. cbv beta in P. unfold Rleb.
  destruct (Rle_dec 0 (mean (map (fun x => (x - mean l) * (x - mean l)) l))); [reflexivity|lra].
Qed.

Lemma deviation_nonneg l : 0 <= deviation_of l.
Proof. apply sqrt_pos. Qed.

Lemma mean_const c l : l <> [] -> (forall x, In x l -> x = c) -> mean l = c.
Proof.
  intros Hne H. unfold mean. assert (E : Rsum l = INR (length l) * c).
  { clear Hne. induction l as [|a l IH]; [cbn; lra|]. cbn [Rsum fold_right length]. rewrite S_INR. fold (Rsum l).
    rewrite IH by (intros; apply H; now right). rewrite (H a) by now left. lra. }
  rewrite E. field. apply Rgt_not_eq. now apply INR_length_pos.
Qed.
Lemma deviation_const c l : l <> [] -> (forall x, In x l -> x = c) -> deviation_of l = 0.
Proof.
  intros Hne H. unfold deviation_of. rewrite (mean_const c l Hne H).
  rewrite (mean_const 0); [apply sqrt_0|now destruct l|].
  intros y Hy. apply in_map_iff in Hy. destruct Hy as (x & <- & Hx). rewrite (H x Hx). ring.
Qed.

Lemma insert_x_fin x l : insert_x (Fin x) (map Fin l) = map Fin (insert_R x l).
Proof.
  induction l as [|y l IH]; [reflexivity|]. cbn [map insert_x insert_R]. rewrite IH. cbn [xltb xeqb isnan].
  unfold Rltb, Reqb. unfold Rleb. destruct (Rle_dec x y); destruct (Rlt_dec x y); destruct (Req_EM_T x y); cbn; try reflexivity; exfalso; lra.
Qed.
Lemma sort_x_fin l : sort_x (map Fin l) = map Fin (sort_R l).
Proof. induction l as [|x l IH]; [reflexivity|]. cbn. unfold sort_x in IH. rewrite IH. apply insert_x_fin. Qed.

Lemma sort_length l : length (sort_R l) = length l.
Proof. symmetry. apply Permutation_length, sort_perm. Qed.

Lemma trimr_fin lim l : 0 <= lim < 1 / 2 -> exists kept, trimr lim (map Fin l) = Ok (map Fin kept) /\ trimmed lim l kept /\ (l <> [] -> kept <> []).
Proof.
  intros Hl. unfold trimr. rewrite map_length.
  assert (E : (Rltb 1 lim || Rltb lim 0)%bool = false).
  { unfold Rltb. destruct (Rlt_dec 1 lim); [lra|]. destruct (Rlt_dec lim 0); [lra|]. reflexivity. }
  rewrite E, sort_x_fin. pose proof (pos_INR (length l)) as PN.
  destruct (nat_floor (lim * INR (length l))) as (k & Hk); [apply Rmult_le_pos; lra|].
  rewrite (Int_part_spec _ k Hk), Nat2Z.id, skipn_map, firstn_map.
  assert (B : (k + k <= length l)%nat).
  { apply INR_le. rewrite plus_INR. nra. }
  exists (firstn (length l - k - k) (skipn k (sort_R l))). split; [reflexivity|]. split.
  - exists k, (firstn k (sort_R l)), (skipn (length l - k - k) (skipn k (sort_R l))). split; [exact Hk|].
    assert (EQ : (firstn k (sort_R l) ++ firstn (length l - k - k) (skipn k (sort_R l)) ++ skipn (length l - k - k) (skipn k (sort_R l)))%list = sort_R l).
    { now rewrite !firstn_skipn. }
    rewrite EQ. refine (conj _ (conj _ (conj (sort_perm l) (sort_sorted l)))).
    + rewrite firstn_length, sort_length. lia.
    + rewrite !skipn_length, sort_length. lia.
  - intros Hne C. apply (f_equal (@length R)) in C. rewrite firstn_length, skipn_length, sort_length in C. cbn in C.
    assert (length l = k + k)%nat by lia. apply (f_equal INR) in H. rewrite plus_INR in H. pose proof (INR_length_pos l Hne). nra.
Qed.

Lemma trimmed_unique lim l a b : trimmed lim l a -> trimmed lim l b -> a = b.
Proof.
  intros (k & lo & hi & Hk & L1 & L2 & P & S) (k' & lo' & hi' & Hk' & L1' & L2' & P' & S').
  assert (k = k').
  { destruct (Nat.lt_trichotomy k k') as [H|[H|H]]; [|exact H|]; exfalso; apply le_INR in H; rewrite S_INR in H; lra. }
  subst k'. assert (E : (lo ++ a ++ hi)%list = (lo' ++ b ++ hi')%list).
  { apply sorted_unique; try assumption. eapply Permutation_trans; [apply Permutation_sym; exact P|exact P']. }
  assert (LA : length a = length b) by (apply (f_equal (@length R)) in E; rewrite !app_length in E; lia).
  apply (f_equal (skipn k)) in E. rewrite !skipn_app in E.
  rewrite (skipn_all2 lo), (skipn_all2 lo') in E by lia. replace (k - length lo)%nat with 0%nat in E by lia.
  replace (k - length lo')%nat with 0%nat in E by lia. cbn [skipn app] in E.
  clear -E LA. revert b LA E. induction a as [|x a IH]; intros [|y b] LA E; try discriminate; [reflexivity|].
  cbn in E. injection E as -> E. f_equal. apply IH; [now injection LA|exact E].
Qed.

Lemma trimmed_shift lim l a c : trimmed lim l a -> trimmed lim (map (fun x => x + c) l) (map (fun x => x + c) a).
Proof.
  intros (k & lo & hi & Hk & L1 & L2 & P & S). exists k, (map (fun x => x + c) lo), (map (fun x => x + c) hi).
  rewrite !map_length, <- !map_app. refine (conj Hk (conj L1 (conj L2 (conj (Permutation_map _ P) _)))).
  clear -S. induction S as [|x s S IH F]; cbn; constructor; [exact IH|].
  apply Forall_forall. intros y Hy. apply in_map_iff in Hy. destruct Hy as (z & <- & Hz). eapply Forall_forall in F; [|exact Hz]. lra.
Qed.
Lemma mean_shift l c : l <> [] -> mean (map (fun x => x + c) l) = mean l + c.
Proof.
  intros H. unfold mean. rewrite map_length. assert (E : Rsum (map (fun x => x + c) l) = Rsum l + INR (length l) * c).
  { clear H. induction l as [|a l IH]; [cbn; lra|]. cbn [map Rsum fold_right length]. fold (Rsum l). fold (Rsum (map (fun x => x + c) l)).
    rewrite IH, S_INR. lra. }
  rewrite E. field. apply Rgt_not_eq. now apply INR_length_pos.
Qed.
Lemma deviation_shift l c : l <> [] -> deviation_of (map (fun x => x + c) l) = deviation_of l.
Proof.
  intros H. unfold deviation_of. rewrite mean_shift by exact H. rewrite map_map. do 2 f_equal. apply map_ext. intros x. ring.
Qed.
Lemma trimmed_empty lim l : trimmed lim l [] -> lim < 1 / 2 -> l = [].
Proof.
  intros (k & lo & hi & Hk & L1 & L2 & P & S) H. apply Permutation_length in P. rewrite !app_length in P. cbn in P.
  destruct l as [|x l]; [reflexivity|]. exfalso. assert (E : INR (length (x :: l)) = INR k + INR k) by (rewrite P, plus_INR, L1, L2; cbn; reflexivity).
  pose proof (INR_length_pos (x :: l) ltac:(discriminate)). nra.
Qed.

(** ** The outlier mask *)

Definition table (n : nat) (t : list (list R)) : arr2 := mkArr2 n (map (map Fin) t).

Lemma last_nth (r : list R) : last r 0 = nth (length r - 1) r 0.
Proof.
  induction r as [|a r IH]; [reflexivity|]. destruct r as [|b r]; [reflexivity|].
  change (last (a :: b :: r) 0) with (last (b :: r) 0). rewrite IH. cbn. now rewrite Nat.sub_0_r.
Qed.
Lemma nth_fin (r : list R) j : (j < length r)%nat -> nth j (map Fin r) NaN = Fin (nth j r 0).
Proof. intros H. rewrite (nth_indep (map Fin r) NaN (Fin 0)) by (now rewrite map_length). apply map_nth. Qed.

Lemma rescale_fin n t logmp : rectangular n t -> (0 < n)%nat ->
  rescale_last (table n t) (Fin logmp) = table n (map (fun r => map (fun x => x - last r 0 + logmp) r) t).
Proof.
  intros Hr Hn. unfold rescale_last, table. cbn [width rows2]. f_equal. rewrite !map_map. apply map_ext_in. intros r Hin.
  rewrite nth_fin by (rewrite (Hr r Hin); lia). rewrite !map_map. apply map_ext. intros x. rewrite last_nth, (Hr r Hin). reflexivity.
Qed.
Lemma column_fin n t j : rectangular n t -> (j < n)%nat -> column2 (table n t) j = map Fin (map (fun r => nth j r 0) t).
Proof.
  intros Hr Hj. unfold column2, table. cbn [rows2]. rewrite !map_map. apply map_ext_in. intros r Hin. apply nth_fin. now rewrite (Hr r Hin).
Qed.
Lemma rescaled_column n t logmp j : rectangular n t -> (j < n)%nat ->
  column2 (rescale_last (table n t) (Fin logmp)) j = map Fin (shifted_column t logmp j).
Proof.
  intros Hr Hj. rewrite rescale_fin by (assumption || lia). rewrite column_fin; [|intros r Hin; apply in_map_iff in Hin; destruct Hin as (s & <- & Hs); rewrite map_length; now apply Hr|exact Hj].
  f_equal. unfold shifted_column. rewrite map_map. apply map_ext_in. intros r Hin.
  rewrite (nth_indep _ 0 (0 - last r 0 + logmp)) by (rewrite map_length, (Hr r Hin); exact Hj).
  apply (map_nth (fun x => x - last r 0 + logmp)).
Qed.

Lemma column_z_nat a j : (j < width a)%nat -> column_z a (Z.of_nat j) = Ok (column2 a j).
Proof.
  intros H. unfold column_z. cbv zeta. destruct (Z.ltb_spec (Z.of_nat j) 0); [lia|].
  destruct (Z.leb_spec 0 (Z.of_nat j)); [|lia]. destruct (Z.ltb_spec (Z.of_nat j) (Z.of_nat (width a))); [|lia]. cbn. now rewrite Nat2Z.id.
Qed.
Lemma column_z_neg a j : (0 < j <= width a)%nat -> column_z a (- Z.of_nat j) = Ok (column2 a (width a - j)).
Proof.
  intros H. unfold column_z. cbv zeta. destruct (Z.ltb_spec (- Z.of_nat j) 0); [|lia].
  destruct (Z.leb_spec 0 (Z.of_nat (width a) + - Z.of_nat j)); [|lia].
  destruct (Z.ltb_spec (Z.of_nat (width a) + - Z.of_nat j) (Z.of_nat (width a))); [|lia]. cbn. do 2 f_equal. lia.
Qed.

(** Whether [x] passes the cut in a column with trimmed values [kept]. *)
Definition passesb (kept : list R) (z x : R) : bool :=
  xltb (xabs (xdiv (xsub (Fin x) (xmean (map Fin kept))) (xstd (map Fin kept)))) (Fin z).

Lemma passesb_spec kept z x : kept <> [] -> passesb kept z x = true <-> 0 < deviation_of kept /\ Rabs (x - mean kept) < z * deviation_of kept.
Proof.
  intros H. unfold passesb. rewrite xmean_fin, xstd_fin by exact H. pose proof (deviation_nonneg kept) as P.
  change (xsub (Fin x) (Fin (mean kept))) with (Fin (x - mean kept)).
  unfold xdiv, Reqb. destruct (Req_EM_T (deviation_of kept) 0) as [E|E].
  - rewrite E. match goal with |- ?b = true <-> _ => assert (F : b = false) end.
    { destruct (Req_EM_T (x - mean kept) 0); [reflexivity|]. now destruct (Rltb 0 (x - mean kept)). }
    rewrite F. split; [discriminate|lra].
  - cbn [xabs xltb]. unfold Rltb.
    assert (D : 0 < deviation_of kept) by lra.
    replace (Rabs ((x - mean kept) / deviation_of kept)) with (Rabs (x - mean kept) / deviation_of kept)
      by (unfold Rdiv; rewrite Rabs_mult, (Rabs_right (/ deviation_of kept)) by (left; now apply Rinv_0_lt_compat); reflexivity).
    destruct (Rlt_dec (Rabs (x - mean kept) / deviation_of kept) z) as [L|L].
    + split; [intros _; split; [exact D|]|reflexivity]. apply (Rmult_lt_compat_r (deviation_of kept)) in L; [|exact D].
      replace (Rabs (x - mean kept) / deviation_of kept * deviation_of kept) with (Rabs (x - mean kept)) in L by (field; lra). exact L.
    + split; [discriminate|]. intros [_ K]. exfalso. apply L. apply (Rmult_lt_reg_r (deviation_of kept)); [exact D|].
      replace (Rabs (x - mean kept) / deviation_of kept * deviation_of kept) with (Rabs (x - mean kept)) by (field; lra). exact K.
Qed.

Lemma step_nat n t logmp lim z mask it : rectangular n t -> 0 <= lim < 1 / 2 -> (it < n)%nat ->
  exists kept, trimmed lim (shifted_column t logmp it) kept /\ (t <> [] -> kept <> []) /\
  clean_step (rescale_last (table n t) (Fin logmp)) lim (Fin z) mask (Z.of_nat it) =
    Ok (map (fun mz => (fst mz && passesb kept z (snd mz))%bool) (combine mask (shifted_column t logmp it))).
Proof.
  intros Hr Hl Hi. destruct (trimr_fin lim (shifted_column t logmp it) Hl) as (kept & E & T & NE). exists kept.
  split; [exact T|]. split; [intros Ht; apply NE; unfold shifted_column; now destruct t|].
  unfold clean_step. rewrite column_z_nat by exact Hi. cbn [bind]. rewrite rescaled_column by assumption.
  unfold trimmed_mean_ms, trimmed_std_ms. rewrite E. cbn [bind]. f_equal.
  rewrite map_map. generalize (shifted_column t logmp it) as col. intros col. revert mask.
  induction col as [|x col IH]; intros [|b mask]; try reflexivity. cbn [map combine]. f_equal. apply IH.
Qed.

Lemma column_length t logmp it : length (shifted_column t logmp it) = length t.
Proof. unfold shifted_column. apply map_length. Qed.

(** The mask after the loop over [its]. *)
Lemma fold_its n t logmp lim z : rectangular n t -> 0 <= lim < 1 / 2 -> forall its mask, length mask = length t ->
  (forall it, In it its -> (it < n)%nat) ->
  exists mask', fold_res (clean_step (rescale_last (table n t) (Fin logmp)) lim (Fin z)) mask (map Z.of_nat its) = Ok mask' /\
    length mask' = length t /\
    forall i, nth_error mask' i = Some true <-> nth_error mask i = Some true /\ forall it, In it its -> inlier t logmp lim z i it.
Proof.
  intros Hr Hl. induction its as [|it its IH]; intros mask Lm Hb; cbn [map fold_res].
  - exists mask. split; [reflexivity|]. split; [exact Lm|]. intros i. cbn. tauto.
  - destruct (step_nat n t logmp lim z mask it Hr Hl (Hb it (or_introl eq_refl))) as (kept & T & NE & E). rewrite E. cbn [bind].
    set (m2 := map _ _). destruct (IH m2) as (mask' & E' & L' & H').
    + unfold m2. rewrite map_length, combine_length, column_length. lia.
    + intros j Hj. apply Hb. now right.
    + exists mask'. split; [exact E'|]. split; [exact L'|]. intros i. rewrite H'.
      assert (S : nth_error m2 i = Some true <-> nth_error mask i = Some true /\ inlier t logmp lim z i it).
      { unfold m2. split.
        - intros H. destruct (nth_error (combine mask (shifted_column t logmp it)) i) as [[b x]|] eqn:C.
          2: { rewrite nth_error_map, C in H. discriminate. }
          rewrite nth_error_map, C in H. cbn in H. injection H as H. apply andb_prop in H. destruct H as [-> Hp].
          assert (Hi : (i < length t)%nat).
          { assert (i < length (combine mask (shifted_column t logmp it)))%nat by (apply nth_error_Some; congruence).
            rewrite combine_length, column_length in H. lia. }
          assert (C1 : nth_error mask i = Some true /\ nth_error (shifted_column t logmp it) i = Some x).
          { clear -C. revert i C. generalize (shifted_column t logmp it) as col. revert mask. induction mask as [|m mask IH]; intros [|c col] [|i] C; try discriminate; cbn in *.
            - injection C as -> ->. auto.
            - now apply IH. }
          split; [apply C1|]. exists x, kept. apply passesb_spec in Hp; [|apply NE; intros ->; cbn in Hi; lia].
          refine (conj (proj2 C1) (conj T Hp)).
        - intros [Hm (x & kept' & Hx & T' & D)]. rewrite (trimmed_unique _ _ _ _ T' T) in D.
          rewrite nth_error_map. assert (C : nth_error (combine mask (shifted_column t logmp it)) i = Some (true, x)).
          { clear -Hm Hx. revert i Hm Hx. generalize (shifted_column t logmp it) as col. revert mask. induction mask as [|m mask IH]; intros [|c col] [|i] Hm Hx; try discriminate; cbn in *.
            - congruence.
            - now apply IH. }
          rewrite C. cbn. f_equal. apply passesb_spec; [|exact D]. apply NE. intros ->. unfold shifted_column in Hx. destruct i; discriminate. }
      rewrite S. split.
      * intros [[A B] C]. split; [exact A|]. intros j [<-|Hj]; auto.
      * intros [A B]. split; [split; [exact A|apply B; now left]|]. intros j Hj. apply B. now right.
Qed.

Lemma zrange_nat lo n : zrange (Z.of_nat lo) (Z.of_nat n - 1) = map Z.of_nat (seq lo (n - 1 - lo)).
Proof.
  unfold zrange. replace (Z.to_nat (Z.of_nat n - 1 - Z.of_nat lo)) with (n - 1 - lo)%nat by lia.
  generalize (n - 1 - lo)%nat as m. intros m.
  apply nth_ext with (d := 0%Z) (d' := 0%Z); [now rewrite !map_length, !seq_length|].
  intros k Hk. rewrite map_length, seq_length in Hk.
  rewrite (nth_indep _ 0%Z ((fun k => Z.of_nat lo + Z.of_nat k)%Z 0%nat)) by (now rewrite map_length, seq_length).
  rewrite (map_nth (fun k => Z.of_nat lo + Z.of_nat k)%Z), seq_nth by exact Hk.
  rewrite (nth_indep _ 0%Z (Z.of_nat 0)) by (now rewrite map_length, seq_length).
  rewrite (map_nth Z.of_nat), seq_nth by exact Hk. lia.
Qed.

Lemma nth_error_repeat_true n i : nth_error (repeat true n) i = Some true <-> (i < n)%nat.
Proof.
  split; intros H.
  - rewrite <- (repeat_length true n). apply nth_error_Some. congruence.
  - revert i H. induction n as [|n IH]; intros [|i] H; cbn; try lia; [reflexivity|]. apply IH. lia.
Qed.

Lemma clean_mask_spec n t logmp lim z it_min : rectangular n t -> (0 < n)%nat -> 0 <= lim < 1 / 2 ->
  exists mask, get_clean_sample_mask (table n t) (Fin logmp) (Z.of_nat it_min) lim (Fin z) = Ok mask /\
    length mask = length t /\
    forall i, nth_error mask i = Some true <->
      (i < length t)%nat /\ forall it, (it_min <= it)%nat -> (it < n - 1)%nat -> inlier t logmp lim z i it.
Proof.
  intros Hr Hn Hl. unfold get_clean_sample_mask. cbn [width table rows2]. destruct n as [|n]; [lia|].
  fold (table (S n) t). rewrite map_length, zrange_nat.
  destruct (fold_its (S n) t logmp lim z Hr Hl (seq it_min (S n - 1 - it_min)) (repeat true (length t))) as (mask & E & L & H).
  - apply repeat_length.
  - intros it Hit. apply in_seq in Hit. lia.
  - exists mask. split; [exact E|]. split; [exact L|]. intros i. rewrite H, nth_error_repeat_true.
    split; intros [A B]; (split; [exact A|]); intros it; [intros H1 H2; apply B, in_seq; lia|intros Hit; apply in_seq in Hit; apply B; lia].
Qed.

(** *** Raising it_min, for every table *)

Definition mask_le (a b : list bool) : Prop := forall i, nth_error a i = Some true -> nth_error b i = Some true.

Lemma combine_nth_error {A B} (a : list A) : forall (b : list B) i x y, nth_error (combine a b) i = Some (x, y) <-> nth_error a i = Some x /\ nth_error b i = Some y.
Proof.
  induction a as [|u a IH]; intros [|v b] [|i] x y; cbn; try (split; [discriminate|intros [? ?]; discriminate]).
  - split; [intros H; injection H as -> ->; auto|intros [H1 H2]; injection H1 as ->; injection H2 as ->; reflexivity].
  - apply IH.
Qed.

Lemma step_mask s lim z m it m' : clean_step s lim z m it = Ok m' ->
  exists zs, forall i, nth_error m' i = Some true <-> nth_error m i = Some true /\ exists x, nth_error zs i = Some x /\ xltb (xabs x) z = true.
Proof.
  unfold clean_step. destruct (column_z s it) as [col|]; [|discriminate]. cbn [bind].
  destruct (trimmed_mean_ms lim col) as [mu|]; [|discriminate]. cbn [bind].
  destruct (trimmed_std_ms lim col) as [sd|]; [|discriminate]. cbn [bind]. intros H. injection H as <-.
  exists (map (fun x => xdiv (xsub x mu) sd) col). intros i. rewrite nth_error_map.
  set (zs := map _ col). split.
  - destruct (nth_error (combine m zs) i) as [[b x]|] eqn:C; [|discriminate]. cbn. intros H. injection H as H.
    apply andb_prop in H. destruct H as [-> H]. apply combine_nth_error in C. destruct C as [C1 C2]. eauto.
  - intros [Hm (x & Hx & P)]. rewrite (proj2 (combine_nth_error m zs i true x) (conj Hm Hx)). cbn. now rewrite P.
Qed.
Lemma step_deterministic s lim z m1 m2 it r1 : clean_step s lim z m1 it = Ok r1 -> exists r2, clean_step s lim z m2 it = Ok r2.
Proof.
  unfold clean_step. destruct (column_z s it) as [col|]; [|discriminate]. cbn [bind].
  destruct (trimmed_mean_ms lim col) as [mu|]; [|discriminate]. cbn [bind].
  destruct (trimmed_std_ms lim col) as [sd|]; [|discriminate]. cbn [bind]. eauto.
Qed.
Lemma step_mono s lim z m1 m2 it r1 r2 : mask_le m1 m2 -> clean_step s lim z m1 it = Ok r1 -> clean_step s lim z m2 it = Ok r2 -> mask_le r1 r2.
Proof.
  unfold clean_step. destruct (column_z s it) as [col|]; [|discriminate]. cbn [bind].
  destruct (trimmed_mean_ms lim col) as [mu|]; [|discriminate]. cbn [bind].
  destruct (trimmed_std_ms lim col) as [sd|]; [|discriminate]. cbn [bind]. intros L H1 H2. injection H1 as <-. injection H2 as <-.
  intros i H. rewrite nth_error_map in *. destruct (nth_error (combine m1 (map (fun x => xdiv (xsub x mu) sd) col)) i) as [[b x]|] eqn:C; [|discriminate].
  apply combine_nth_error in C. destruct C as [C1 C2]. cbn in H. injection H as H. apply andb_prop in H. destruct H as [-> H].
  rewrite (proj2 (combine_nth_error m2 _ i true x) (conj (L i C1) C2)). cbn. now rewrite H.
Qed.
Lemma step_le s lim z m it r : clean_step s lim z m it = Ok r -> mask_le r m.
Proof. intros H i Hi. destruct (step_mask _ _ _ _ _ _ H) as (zs & E). now apply E in Hi. Qed.

Lemma fold_mono s lim z its : forall m1 m2 r1 r2, mask_le m1 m2 ->
  fold_res (clean_step s lim z) m1 its = Ok r1 -> fold_res (clean_step s lim z) m2 its = Ok r2 -> mask_le r1 r2.
Proof.
  induction its as [|it its IH]; intros m1 m2 r1 r2 L H1 H2; cbn [fold_res] in *.
  - injection H1 as <-. injection H2 as <-. exact L.
  - destruct (clean_step s lim z m1 it) as [a|] eqn:E1; [|discriminate]. destruct (clean_step s lim z m2 it) as [b|] eqn:E2; [|discriminate].
    eapply IH; [|exact H1|exact H2]. eapply step_mono; eassumption.
Qed.
Lemma fold_le s lim z its : forall m r, fold_res (clean_step s lim z) m its = Ok r -> mask_le r m.
Proof.
  induction its as [|it its IH]; intros m r H; cbn [fold_res] in H.
  - injection H as <-. now intros i.
  - destruct (clean_step s lim z m it) as [a|] eqn:E; [|discriminate]. intros i Hi. eapply step_le; [exact E|]. eapply IH; eassumption.
Qed.
Lemma fold_app s lim z a : forall b m, fold_res (clean_step s lim z) m (a ++ b)%list =
  let* m' := fold_res (clean_step s lim z) m a in fold_res (clean_step s lim z) m' b.
Proof. induction a as [|x a IH]; intros b m; [reflexivity|]. cbn [app fold_res]. destruct (clean_step s lim z m x); cbn [bind]; [apply IH|reflexivity]. Qed.

Lemma zrange_suffix lo lo' hi : (lo <= lo')%Z -> exists pre, zrange lo hi = (pre ++ zrange lo' hi)%list.
Proof.
  intros H. unfold zrange. destruct (Z.le_gt_cases hi lo').
  - replace (Z.to_nat (hi - lo')) with 0%nat by lia. exists (map (fun k => (lo + Z.of_nat k)%Z) (seq 0 (Z.to_nat (hi - lo)))). cbn. now rewrite app_nil_r.
  - exists (map (fun k => (lo + Z.of_nat k)%Z) (seq 0 (Z.to_nat (lo' - lo)))).
    replace (Z.to_nat (hi - lo)) with (Z.to_nat (lo' - lo) + Z.to_nat (hi - lo'))%nat by lia.
    rewrite seq_app, map_app. f_equal. cbn [Nat.add].
    generalize (Z.to_nat (hi - lo')) as m. intros m. clear H0.
    assert (G : forall s, map (fun k => (lo + Z.of_nat k)%Z) (seq (Z.to_nat (lo' - lo) + s) m) = map (fun k => (lo' + Z.of_nat k)%Z) (seq s m)).
    { induction m as [|m IH]; intros s; [reflexivity|]. cbn [seq map]. f_equal; [lia|]. rewrite <- Nat.add_succ_r. apply IH. }
    specialize (G 0%nat). now rewrite Nat.add_0_r in G.
Qed.

Lemma clean_mask_mono a logmp lo lo' lim z m m' : (lo <= lo')%Z ->
  get_clean_sample_mask a logmp lo lim z = Ok m -> get_clean_sample_mask a logmp lo' lim z = Ok m' -> mask_le m m'.
Proof.
  intros H E E'. unfold get_clean_sample_mask in *. destruct (width a) as [|w]; [discriminate|].
  destruct (zrange_suffix lo lo' (Z.of_nat (S w) - 1) H) as (pre & P). rewrite P, fold_app in E.
  destruct (fold_res _ _ pre) as [mp|] eqn:Ep; [|discriminate]. cbn [bind] in E.
  eapply fold_mono; [|exact E|exact E']. eapply fold_le. exact Ep.
Qed.

(** *** No spread *)

Lemma no_spread_not_inlier t logmp lim z i it c : lim < 1 / 2 ->
  (forall x, In x (shifted_column t logmp it) -> x = c) -> ~ inlier t logmp lim z i it.
Proof.
  intros Hl Hc (x & kept & Hx & T & D & _). destruct kept as [|k0 ks].
  - apply trimmed_empty in T; [|exact Hl]. rewrite T in Hx. destruct i; discriminate.
  - rewrite (deviation_const c) in D; [lra|discriminate|]. intros y Hy. destruct T as (k & lo & hi & _ & _ & _ & P & _).
    apply Hc. eapply Permutation_in; [apply Permutation_sym; exact P|]. apply in_or_app. right. apply in_or_app. now left.
Qed.

Lemma last_column_const n t logmp x : rectangular n t -> (0 < n)%nat -> In x (shifted_column t logmp (n - 1)) -> x = logmp.
Proof.
  intros Hr Hn H. unfold shifted_column in H. apply in_map_iff in H. destruct H as (r & <- & Hin).
  rewrite last_nth, (Hr r Hin). ring.
Qed.

(** Shifting rows. *)
Lemma column_row_shift n t logmp it (c : list R -> R) : rectangular n t -> (it < n)%nat ->
  shifted_column (map (fun r => map (fun x => x + c r) r) t) logmp it = shifted_column t logmp it.
Proof.
  intros Hr Hi. unfold shifted_column. rewrite map_map. apply map_ext_in. intros r Hin.
  assert (L : length r = n) by now apply Hr. rewrite !last_nth, map_length.
  assert (E : forall j, (j < n)%nat -> nth j (map (fun x => x + c r) r) 0 = nth j r 0 + c r).
  { intros j Hj. rewrite (nth_indep _ 0 (0 + c r)) by (rewrite map_length; lia). apply (map_nth (fun x => x + c r)). }
  rewrite !E by lia. ring.
Qed.
Lemma column_logmp t a b it : shifted_column t b it = map (fun x => x + (b - a)) (shifted_column t a it).
Proof. unfold shifted_column. rewrite map_map. apply map_ext. intros r. ring. Qed.
Lemma inlier_logmp t a b lim z i it : lim < 1 / 2 -> inlier t a lim z i it -> inlier t b lim z i it.
Proof.
  intros Hl (x & kept & Hx & T & D). exists (x + (b - a)), (map (fun x => x + (b - a)) kept).
  rewrite (column_logmp t a b). split; [apply (map_nth_error (fun x => x + (b - a)) i _ Hx)|]. split; [now apply trimmed_shift|].
  assert (kept <> []).
  { intros ->. apply trimmed_empty in T; [|exact Hl]. rewrite T in Hx. destruct i; discriminate. }
  rewrite deviation_shift, mean_shift by assumption. replace (x + (b - a) - (mean kept + (b - a))) with (x - mean kept) by ring. exact D.
Qed.

Lemma mask_ext (a b : list bool) : length a = length b -> (forall i, nth_error a i = Some true <-> nth_error b i = Some true) -> a = b.
Proof.
  revert b. induction a as [|x a IH]; intros [|y b] L H; try discriminate; [reflexivity|]. f_equal.
  - specialize (H 0%nat). cbn in H. destruct x, y; try reflexivity; [destruct H as [H _]|destruct H as [_ H]]; specialize (H eq_refl); discriminate.
  - apply IH; [now injection L|]. intros i. apply (H (S i)).
Qed.

(** ** np.interp *)

Lemma filter_none {A} (f : A -> bool) l : (forall x, In x l -> f x = false) -> filter f l = [].
Proof. induction l as [|a l IH]; intros H; [reflexivity|]. cbn. rewrite (H a) by now left. apply IH. intros x Hx. apply H. now right. Qed.
Lemma filter_le_count xp x : strictly_increasing xp -> forall j, nth_error xp j = Some x ->
  length (filter (fun v => xleb v (Fin x)) (map Fin xp)) = S j.
Proof.
  rewrite filter_map, map_length. revert x. induction xp as [|a xp IH]; intros x Hs j Hj; [destruct j; discriminate|].
  assert (Hs' : strictly_increasing xp) by (intros i k u v H1 H2 H3; apply (Hs (S i) (S k) u v); [lia|exact H2|exact H3]).
  cbn [filter]. rewrite xleb_fin. destruct j as [|j].
  - cbn in Hj. injection Hj as ->. unfold Rleb. destruct (Rle_dec x x); [|lra]. cbn [length]. f_equal.
    assert (E : filter (fun v => xleb (Fin v) (Fin x)) xp = []).
    { apply filter_none. intros v Hv. rewrite xleb_fin. unfold Rleb. destruct (Rle_dec v x); [|reflexivity]. exfalso.
      apply In_nth_error in Hv. destruct Hv as (i & Hi). specialize (Hs 0%nat (S i) x v ltac:(lia) eq_refl Hi). lra. }
    now rewrite E.
  - cbn in Hj. pose proof (Hs 0%nat (S j) a x ltac:(lia) eq_refl Hj) as L. unfold Rleb. destruct (Rle_dec a x); [|lra].
    cbn [length]. f_equal. now apply IH.
Qed.
