(** Lemmas about np.interp and the measured targets. *)

From Coq Require Import Reals String List ZArith Bool Arith Lia Lra Permutation Sorted.
From Verif Require Import Model_Num Model_Base Model_Kernels Model_Utils Model_Adam Model_Fitter Model_Data
  RealAux Spec_Kernels Spec_Utils Spec_Fitter Spec_Data Proofs_Trim Proofs_Fitter Proofs_Data Proofs_Data2 Proofs_Data3.
Import ListNotations.
Local Open Scope R_scope.

Lemma filter_le_between xp x : strictly_increasing xp -> forall j v, nth_error xp j = Some v -> v <= x ->
  (forall k w, (j < k)%nat -> nth_error xp k = Some w -> x < w) ->
  length (filter (fun v => xleb v (Fin x)) (map Fin xp)) = S j.
Proof.
  rewrite filter_map, map_length. induction xp as [|a xp IH]; intros Hs j v Hj Hv Hk; [destruct j; discriminate|].
  assert (Hs' : strictly_increasing xp) by (intros i k u w H1 H2 H3; apply (Hs (S i) (S k) u w); [lia|exact H2|exact H3]).
  cbn [filter]. rewrite xleb_fin. destruct j as [|j].
  - cbn in Hj. injection Hj as ->. unfold Rleb. destruct (Rle_dec v x); [|lra]. cbn [length]. f_equal.
    rewrite filter_none; [reflexivity|]. intros w Hw. rewrite xleb_fin. unfold Rleb. destruct (Rle_dec w x); [|reflexivity]. exfalso.
    apply In_nth_error in Hw. destruct Hw as (i & Hi). specialize (Hk (S i) w ltac:(lia) Hi). lra.
  - cbn in Hj. pose proof (Hs 0%nat (S j) a v ltac:(lia) eq_refl Hj) as L. unfold Rleb. destruct (Rle_dec a x); [|lra].
    cbn [length]. f_equal. apply (IH Hs' j v Hj Hv). intros k w H1 H2. apply (Hk (S k) w); [lia|exact H2].
Qed.

Lemma nth_map_fin l k v : nth_error l k = Some v -> nth k (map Fin l) NaN = Fin v.
Proof. intros H. apply nth_error_nth. now apply map_nth_error. Qed.

Lemma incr_le xp i j x y : strictly_increasing xp -> (i <= j)%nat -> nth_error xp i = Some x -> nth_error xp j = Some y -> x <= y.
Proof.
  intros Hs H Hx Hy. destruct (Nat.eq_dec i j) as [<-|N]; [rewrite Hx in Hy; injection Hy as ->; lra|]. left. eapply Hs; [|exact Hx|exact Hy]. lia.
Qed.

Section Interp.
Variables (xp : list R) (fp : list xr).
Hypothesis Hlen : length xp = length fp.
Hypothesis Hinc : strictly_increasing xp.

Lemma interp_unfold x a rest : xp = a :: rest ->
  np_interp x (map Fin xp) fp =
    let n := length xp in
    let at_ l k := nth k l NaN in
    let j := (length (filter (fun v => xleb v x) (map Fin xp)) - 1)%nat in
    Ok (if Nat.eqb n 1 then at_ fp 0%nat
        else if isnan x then NaN
        else if xltb x (Fin a) then at_ fp 0%nat
        else if xltb (at_ (map Fin xp) (n - 1)%nat) x then at_ fp (n - 1)%nat
        else if Nat.eqb j (n - 1) then at_ fp j
        else if xeqb (at_ (map Fin xp) j) x then at_ fp j
        else
          let slope := xdiv (xsub (at_ fp (j + 1)%nat) (at_ fp j)) (xsub (at_ (map Fin xp) (j + 1)%nat) (at_ (map Fin xp) j)) in
          let r := xadd (xmul slope (xsub x (at_ (map Fin xp) j))) (at_ fp j) in
          if isnan r then
            let r := xadd (xmul slope (xsub x (at_ (map Fin xp) (j + 1)%nat))) (at_ fp (j + 1)%nat) in
            if (isnan r && xeqb (at_ fp j) (at_ fp (j + 1)%nat))%bool then at_ fp j else r
          else r).
Proof.
  intros E. assert (L : (length (Fin a :: map Fin rest) =? length fp) = true) by (rewrite <- Hlen, E; cbn; rewrite map_length; apply Nat.eqb_refl).
  rewrite E. cbn [map]. unfold np_interp. rewrite L.
  assert (L' : length (Fin a :: map Fin rest) = length (a :: rest)) by (cbn; now rewrite map_length). rewrite L'. reflexivity.
Qed.

Lemma interp_at j x : nth_error xp j = Some x -> np_interp (Fin x) (map Fin xp) fp = Ok (nth j fp NaN).
Proof.
  intros Hj. assert (B : (j < length xp)%nat) by (apply nth_error_Some; congruence).
  destruct xp as [|a rest] eqn:E; [cbn in B; lia|]. rewrite <- E in *. rewrite (interp_unfold _ a rest E). cbv zeta.
  destruct (Nat.eqb_spec (length xp) 1) as [L|L]; [do 2 f_equal; lia|]. cbn [isnan].
  assert (A : a <= x) by (eapply (incr_le xp 0 j); [exact Hinc|lia|now rewrite E|exact Hj]).
  cbn [xltb]. unfold Rltb at 1. destruct (Rlt_dec x a); [lra|].
  destruct (nth_error xp (length xp - 1)) as [z|] eqn:Ez; [|apply nth_error_None in Ez; lia].
  rewrite (nth_map_fin _ _ _ Ez). cbn [xltb].
  assert (x <= z) by (eapply (incr_le xp j (length xp - 1)); [exact Hinc|lia|exact Hj|exact Ez]).
  unfold Rltb. destruct (Rlt_dec z x); [lra|].
  rewrite (filter_le_count xp x Hinc j Hj). replace (S j - 1)%nat with j by lia.
  destruct (Nat.eqb j (length xp - 1)); [reflexivity|]. rewrite (nth_map_fin _ _ _ Hj). cbn [xeqb]. unfold Reqb.
  destruct (Req_EM_T x x); [reflexivity|congruence].
Qed.

Lemma interp_after x z : nth_error xp (length xp - 1) = Some z -> z <= x ->
  np_interp (Fin x) (map Fin xp) fp = Ok (nth (length xp - 1) fp NaN).
Proof.
  intros Hz [Hx|<-]; [|now apply interp_at]. assert (B : (0 < length xp)%nat) by (destruct xp; [discriminate|cbn; lia]).
  destruct xp as [|a rest] eqn:E; [cbn in B; lia|]. rewrite <- E in *. rewrite (interp_unfold _ a rest E). cbv zeta.
  destruct (Nat.eqb_spec (length xp) 1) as [L|L]; [do 2 f_equal; lia|]. cbn [isnan].
  assert (A : a <= z) by (eapply (incr_le xp 0 (length xp - 1)); [exact Hinc|lia|now rewrite E|exact Hz]).
  cbn [xltb]. unfold Rltb at 1. destruct (Rlt_dec x a); [lra|]. rewrite (nth_map_fin _ _ _ Hz). cbn [xltb].
  unfold Rltb. destruct (Rlt_dec z x); [reflexivity|lra].
Qed.

Lemma interp_before x a : nth_error xp 0 = Some a -> x <= a -> np_interp (Fin x) (map Fin xp) fp = Ok (nth 0 fp NaN).
Proof.
  intros Hz [Hx| ->]; [|now apply interp_at].
  destruct xp as [|b rest] eqn:E; [discriminate|]. rewrite <- E in *. rewrite (interp_unfold _ b rest E). cbv zeta.
  assert (b = a) by (rewrite E in Hz; now injection Hz). subst b.
  destruct (Nat.eqb_spec (length xp) 1) as [L|L]; [reflexivity|]. cbn [isnan xltb]. unfold Rltb at 1. destruct (Rlt_dec x a); [reflexivity|lra].
Qed.

Lemma interp_between j x u v fu fv : nth_error xp j = Some u -> nth_error xp (S j) = Some v -> u < x < v ->
  nth_error fp j = Some (Fin fu) -> nth_error fp (S j) = Some (Fin fv) ->
  np_interp (Fin x) (map Fin xp) fp = Ok (Fin ((fv - fu) / (v - u) * (x - u) + fu)).
Proof.
  intros Hu Hv Hx Hfu Hfv. assert (B : (S j < length xp)%nat) by (apply nth_error_Some; congruence).
  destruct xp as [|a rest] eqn:E; [cbn in B; lia|]. rewrite <- E in *. rewrite (interp_unfold _ a rest E). cbv zeta.
  destruct (Nat.eqb_spec (length xp) 1) as [L|L]; [lia|]. cbn [isnan].
  assert (A : a <= u) by (eapply (incr_le xp 0 j); [exact Hinc|lia|now rewrite E|exact Hu]).
  cbn [xltb]. unfold Rltb at 1. destruct (Rlt_dec x a); [lra|].
  destruct (nth_error xp (length xp - 1)) as [z|] eqn:Ez; [|apply nth_error_None in Ez; lia].
  rewrite (nth_map_fin _ _ _ Ez). cbn [xltb].
  assert (v <= z) by (eapply (incr_le xp (S j) (length xp - 1)); [exact Hinc|lia|exact Hv|exact Ez]).
  unfold Rltb. destruct (Rlt_dec z x); [lra|].
  rewrite (filter_le_between xp x Hinc j u Hu) by (try lra; intros k w Hk Hw; assert (v <= w) by (eapply (incr_le xp (S j) k); [exact Hinc|lia|exact Hv|exact Hw]); lra).
  replace (S j - 1)%nat with j by lia. replace (j + 1)%nat with (S j) by lia.
  destruct (Nat.eqb_spec j (length xp - 1)); [lia|]. rewrite (nth_map_fin _ _ _ Hu), (nth_map_fin _ _ _ Hv).
  rewrite (nth_error_nth _ _ NaN Hfu), (nth_error_nth _ _ NaN Hfv).
  cbn [xeqb]. unfold Reqb at 1. destruct (Req_EM_T u x); [lra|].
  change (xsub (Fin fv) (Fin fu)) with (Fin (fv - fu)). change (xsub (Fin v) (Fin u)) with (Fin (v - u)).
  change (xsub (Fin x) (Fin u)) with (Fin (x - u)). unfold xdiv, Reqb. destruct (Req_EM_T (v - u) 0); [lra|].
  reflexivity.
Qed.

Definition interp_val (x : xr) : xr := match np_interp x (map Fin xp) fp with Ok v => v | Err _ => NaN end.

Lemma interps_ok xs : xp <> [] -> np_interps xs (map Fin xp) fp = Ok (map interp_val xs).
Proof.
  intros Hne. induction xs as [|x xs IH]; [reflexivity|]. cbn [np_interps map]. rewrite IH. unfold interp_val at 2.
  destruct xp as [|a rest] eqn:E; [congruence|]. rewrite <- E in *. rewrite (interp_unfold _ a rest E). reflexivity.
Qed.
End Interp.

(** ** The measured tables *)

Section Targets.
Variables (n : nat) (m a : list (list R)) (logmp : R).
Hypothesis Hn : (0 < n)%nat.
Hypothesis Hm : rectangular n m.
Hypothesis Ha : rectangular n a.
Hypothesis Hl : length m = length a.
Hypothesis Hpos : forall r x, In r m -> In x r -> 0 < x.

Lemma last_pos r : In r m -> 0 < last r 0.
Proof using Hn Hm Hpos. intros H. rewrite last_nth. apply (Hpos r); [exact H|]. apply nth_In. rewrite (Hm r H). clear -Hn. lia. Qed.

Definition scaled_rows : list (list R) := map (fun mr => map (fun x => pow10 logmp * x / last (fst mr) 0) (snd mr)) (combine m a).

Lemma scaled_rows_rect : rectangular n scaled_rows.
Proof.
  intros r H. apply in_map_iff in H. destruct H as ([r1 r2] & <- & H). rewrite map_length. apply Ha. now apply in_combine_r in H.
Qed.

Lemma rescale_mass_fin : rescale_mass (npow10 (Fin logmp)) (table n m) (table n a) = table n scaled_rows.
Proof.
  unfold rescale_mass, table, scaled_rows. cbn [width rows2]. f_equal. rewrite map_map.
  assert (E : combine (map (map Fin) m) (map (map Fin) a) = map (fun p => (map Fin (fst p), map Fin (snd p))) (combine m a)).
  { clear. revert a. induction m as [|x l IH]; intros [|y b]; try reflexivity. cbn. f_equal. apply IH. }
  rewrite E, map_map. apply map_ext_in. intros [r1 r2] H. cbn [fst snd]. pose proof (in_combine_l _ _ _ _ H) as H1.
  rewrite nth_fin by (rewrite (Hm r1 H1); lia). rewrite !map_map. apply map_ext. intros x.
  pose proof (last_pos r1 H1) as P. rewrite last_nth, (Hm r1 H1) in P. rewrite last_nth, (Hm r1 H1).
  cbn. unfold Reqb. destruct (Req_EM_T (nth (n - 1) r1 0) 0); [lra|reflexivity].
Qed.

Lemma scaled_rows_column j : (j < n)%nat -> map (fun r => nth j r 0) scaled_rows = scaled_column m a logmp j.
Proof.
  intros Hj. unfold scaled_rows, scaled_column. rewrite map_map. apply map_ext_in. intros [r1 r2] H. cbn [fst snd].
  rewrite (nth_indep _ 0 (pow10 logmp * 0 / last r1 0)) by (rewrite map_length, (Ha r2 (in_combine_r _ _ _ _ H)); exact Hj).
  apply (map_nth (fun x => pow10 logmp * x / last r1 0)).
Qed.
End Targets.

Lemma axis0_nth f n t j : rectangular n t -> (j < n)%nat -> nth j (axis0 f (table n t)) NaN = f (map Fin (map (fun r => nth j r 0) t)).
Proof.
  intros Hr Hj. unfold axis0. cbn [width table]. fold (table n t).
  rewrite (nth_indep _ NaN (f (column2 (table n t) 0))) by (now rewrite map_length, seq_length).
  rewrite (map_nth (fun j => f (column2 (table n t) j))), seq_nth by exact Hj. cbn [Nat.add]. now rewrite column_fin.
Qed.
Lemma axis0_length f a : length (axis0 f a) = width a.
Proof. unfold axis0. now rewrite map_length, seq_length. Qed.

Lemma scaled_pos n m logmp r x : (0 < n)%nat -> rectangular n m -> (forall r x, In r m -> In x r -> 0 < x) ->
  In r (scaled_rows m m logmp) -> In x r -> 0 < x.
Proof.
  intros Hn Hm Hpos Hr Hx. apply in_map_iff in Hr. destruct Hr as ([r1 r2] & <- & H). cbn [fst snd] in Hx.
  apply in_map_iff in Hx. destruct Hx as (y & <- & Hy). pose proof (in_combine_l _ _ _ _ H) as H1. pose proof (in_combine_r _ _ _ _ H) as H2.
  pose proof (last_pos n m Hn Hm Hpos r1 H1). apply Rmult_lt_0_compat; [|now apply Rinv_0_lt_compat].
  apply Rmult_lt_0_compat; [apply pow10_pos|]. now apply (Hpos r2).
Qed.

Lemma log_arr_fin n t : (forall r x, In r t -> In x r -> 0 < x) -> log_arr (table n t) = table n (map (map log10) t).
Proof.
  intros H. unfold log_arr, table. cbn [width rows2]. f_equal. rewrite !map_map. apply map_ext_in. intros r Hr. rewrite !map_map.
  apply map_ext_in. intros x Hx. apply xlog10_pos. eapply H; eassumption.
Qed.
Lemma log_rect n t : rectangular n t -> rectangular n (map (map log10) t).
Proof. intros H r Hr. apply in_map_iff in Hr. destruct Hr as (s & <- & Hs). rewrite map_length. now apply H. Qed.
Lemma log_column n t j : rectangular n t -> (j < n)%nat -> map (fun r => nth j r 0) (map (map log10) t) = map log10 (map (fun r => nth j r 0) t).
Proof.
  intros H Hj. rewrite !map_map. apply map_ext_in. intros r Hr. rewrite (nth_indep _ 0 (log10 0)) by (rewrite map_length, (H r Hr); exact Hj).
  apply map_nth.
Qed.

Lemma logged_pow x : logged x (npow10 (nlog10 (Fin x))).
Proof.
  split; intros H.
  - destruct H as [H| <-]; [rewrite xlog10_pos by exact H; cbn; now rewrite pow10_log10|].
    cbn. unfold Rltb, Reqb. destruct (Rlt_dec 0 0); [lra|]. destruct (Req_EM_T 0 0); [reflexivity|congruence].
  - cbn. unfold Rltb, Reqb. destruct (Rlt_dec 0 x); [lra|]. destruct (Req_EM_T x 0); [lra|reflexivity].
Qed.

Lemma deviation_sq l : l <> [] -> deviation_of l * deviation_of l = variance_of l.
Proof. intros H. unfold deviation_of, variance_of. apply sqrt_sqrt. now apply (mean_sq_nonneg (fun x => x - mean l)). Qed.

Lemma mean_pos l : l <> [] -> (forall x, In x l -> 0 < x) -> 0 < mean l.
Proof.
  intros Hne H. unfold mean. apply Rmult_lt_0_compat; [|apply Rinv_0_lt_compat; now apply INR_length_pos].
  destruct l as [|a l]; [congruence|]. cbn [Rsum fold_right]. fold (Rsum l).
  assert (0 <= Rsum l). { assert (forall x, In x l -> 0 < x) by (intros; apply H; now right). clear -H0. induction l as [|b l IH]; [cbn; lra|].
    cbn. fold (Rsum l). pose proof (H0 b (or_introl eq_refl)). assert (0 <= Rsum l) by (apply IH; intros; apply H0; now right). lra. }
  pose proof (H a (or_introl eq_refl)). lra.
Qed.

(** Target time [x] is read from entry [j] of the tables. *)
Definition reads (lgt : list R) (x : R) (j : nat) : Prop :=
  nth_error lgt j = Some x \/ (j = (length lgt - 1)%nat /\ exists z, nth_error lgt j = Some z /\ z <= x).

Lemma reads_val lgt fp x j : length lgt = length fp -> strictly_increasing lgt -> reads lgt x j -> interp_val lgt fp (Fin x) = nth j fp NaN.
Proof.
  intros L Hs [H|(-> & z & Hz & Hx)]; unfold interp_val.
  - now rewrite (interp_at lgt fp L Hs j x H).
  - now rewrite (interp_after lgt fp L Hs x z Hz Hx).
Qed.
Lemma reads_lt lgt x j : reads lgt x j -> (j < length lgt)%nat.
Proof. intros [H|(_ & z & Hz & _)]; apply nth_error_Some; congruence. Qed.

Lemma match_pos {A} (a b : A) n : (0 < n)%nat -> match n with O => a | S _ => b end = b.
Proof. destruct n; [lia|reflexivity]. Qed.

Section Measure.
Variables (n : nat) (m d : list (list R)) (lgt : list R) (logmp : R).
Hypothesis Hn : (0 < n)%nat.
Hypothesis Hm : rectangular n m.
Hypothesis Hd : rectangular n d.
Hypothesis Hl : length m = length d.
Hypothesis Hne : m <> [].
Hypothesis Hpos : forall r x, In r m -> In x r -> 0 < x.
Hypothesis Ht : length lgt = n.
Hypothesis Hs : strictly_increasing lgt.

Let SM := scaled_rows m m logmp.
Let SD := scaled_rows m d logmp.
Let t_mah := map nlog10 (axis0 xmean (table n SM)).
Let t_log := map nlog10 (axis0 xmean (table n (map (map log10) SM))).
Let t_dm := map nlog10 (axis0 xmean (table n SD)).
Let t_sdm := map nlog10 (axis0 xstd (table n SD)).
Let t_slog := axis0 xstd (table n (map (map log10) SM)).

Lemma measure_ok ts : measure_target_data (table n m) (table n d) (map Fin lgt) (map Fin ts) (Fin logmp) =
  Ok (map (fun x => npow10 (interp_val lgt t_mah (Fin x))) ts, map (fun x => npow10 (interp_val lgt t_log (Fin x))) ts,
      map (fun x => sqr (interp_val lgt t_slog (Fin x))) ts, map (fun x => npow10 (interp_val lgt t_dm (Fin x))) ts,
      map (fun x => sqr (npow10 (interp_val lgt t_sdm (Fin x)))) ts).
Proof.
  unfold measure_target_data. cbn [width table]. rewrite match_pos by exact Hn.
  fold (table n m). fold (table n d).
  rewrite !rescale_mass_fin by assumption || reflexivity. fold SM SD.
  rewrite log_arr_fin by (intros r x Hr Hx; exact (scaled_pos n m logmp r x Hn Hm Hpos Hr Hx)).
  assert (lgt <> []) by (destruct lgt; [cbn in Ht; lia|discriminate]).
  rewrite !interps_ok by (try assumption; rewrite ?map_length, axis0_length; cbn [width table]; congruence).
  cbn [bind]. rewrite !map_map. reflexivity.
Qed.

Lemma SM_rect : rectangular n SM.
Proof. now apply scaled_rows_rect. Qed.
Lemma SD_rect : rectangular n SD.
Proof. now apply scaled_rows_rect. Qed.

Lemma col_ne (b : list (list R)) j : length m = length b -> scaled_column m b logmp j <> [].
Proof. intros H. unfold scaled_column. destruct m; [congruence|]. destruct b; [discriminate|]. cbn. discriminate. Qed.

Lemma map_nlog_nth l j : nth j (map nlog10 l) NaN = nlog10 (nth j l NaN).
Proof. exact (map_nth (fun x : xr => nlog10 x) l NaN j). Qed.

Lemma len_ok (f : list xr -> xr) t : length lgt = length (axis0 f (table n t)).
Proof. now rewrite axis0_length. Qed.
Lemma len_ok_log (f : list xr -> xr) t : length lgt = length (map nlog10 (axis0 f (table n t))).
Proof. now rewrite map_length, axis0_length. Qed.

Lemma t_mah_nth j : (j < n)%nat -> nth j t_mah NaN = Fin (log10 (mean (scaled_column m m logmp j))).
Proof.
  intros Hj. unfold t_mah. rewrite map_nlog_nth, axis0_nth by (exact SM_rect || exact Hj). unfold SM. rewrite (scaled_rows_column n) by assumption.
  rewrite xmean_fin by now apply col_ne. apply xlog10_pos. apply mean_pos; [now apply col_ne|].
  intros x Hx. rewrite <- (scaled_rows_column n) in Hx by assumption. apply in_map_iff in Hx. destruct Hx as (r & <- & Hr).
  apply (scaled_pos n m logmp r _ Hn Hm Hpos Hr). apply nth_In. now rewrite (SM_rect r Hr).
Qed.

Lemma measure_at x j : reads lgt x j ->
  npow10 (interp_val lgt t_mah (Fin x)) = Fin (mean (scaled_column m m logmp j)) /\
  logged (mean (map log10 (scaled_column m m logmp j))) (npow10 (interp_val lgt t_log (Fin x))) /\
  sqr (interp_val lgt t_slog (Fin x)) = Fin (variance_of (map log10 (scaled_column m m logmp j))) /\
  logged (mean (scaled_column m d logmp j)) (npow10 (interp_val lgt t_dm (Fin x))) /\
  sqr (npow10 (interp_val lgt t_sdm (Fin x))) = Fin (variance_of (scaled_column m d logmp j)).
Proof.
  intros R. pose proof (reads_lt _ _ _ R) as Hj. rewrite Ht in Hj.
  assert (NEL : map log10 (scaled_column m m logmp j) <> []).
  { intros K. apply map_eq_nil in K. now apply (col_ne m j eq_refl). }
  refine (conj _ (conj _ (conj _ (conj _ _)))).
  - rewrite (reads_val lgt t_mah x j) by (apply len_ok_log || assumption). rewrite t_mah_nth by exact Hj. cbn. f_equal. apply pow10_log10.
    apply mean_pos; [now apply col_ne|]. intros y Hy. rewrite <- (scaled_rows_column n) in Hy by assumption.
    apply in_map_iff in Hy. destruct Hy as (r & <- & Hr). apply (scaled_pos n m logmp r _ Hn Hm Hpos Hr). apply nth_In. now rewrite (SM_rect r Hr).
  - rewrite (reads_val lgt t_log x j) by (apply len_ok_log || assumption). unfold t_log.
    rewrite map_nlog_nth, axis0_nth by (exact Hj || exact (log_rect n SM SM_rect)). rewrite (log_column n) by (exact SM_rect || exact Hj).
    unfold SM. rewrite (scaled_rows_column n) by assumption. rewrite xmean_fin by exact NEL. apply logged_pow.
  - rewrite (reads_val lgt t_slog x j) by (apply len_ok || assumption). unfold t_slog.
    rewrite axis0_nth by (exact Hj || exact (log_rect n SM SM_rect)). rewrite (log_column n) by (exact SM_rect || exact Hj).
    unfold SM. rewrite (scaled_rows_column n) by assumption. rewrite xstd_fin by exact NEL. cbn. f_equal. now apply deviation_sq.
  - rewrite (reads_val lgt t_dm x j) by (apply len_ok_log || assumption). unfold t_dm.
    rewrite map_nlog_nth, axis0_nth by (exact Hj || exact SD_rect). unfold SD. rewrite (scaled_rows_column n) by assumption.
    rewrite xmean_fin by now apply col_ne. apply logged_pow.
  - rewrite (reads_val lgt t_sdm x j) by (apply len_ok_log || assumption). unfold t_sdm.
    rewrite map_nlog_nth, axis0_nth by (exact Hj || exact SD_rect). unfold SD. rewrite (scaled_rows_column n) by assumption.
    rewrite xstd_fin by now apply col_ne. rewrite (proj1 (logged_pow _)) by apply deviation_nonneg.
    cbn. f_equal. apply deviation_sq. now apply col_ne.
Qed.

Lemma measure_between x j u v : nth_error lgt j = Some u -> nth_error lgt (S j) = Some v -> u < x < v ->
  npow10 (interp_val lgt t_mah (Fin x)) =
    Fin (pow10 ((log10 (mean (scaled_column m m logmp (S j))) - log10 (mean (scaled_column m m logmp j))) / (v - u) * (x - u)
          + log10 (mean (scaled_column m m logmp j)))).
Proof.
  intros Hu Hv Hx. assert (Bj : (S j < n)%nat) by (rewrite <- Ht; apply nth_error_Some; congruence).
  assert (N : forall i, (i < n)%nat -> nth_error t_mah i = Some (Fin (log10 (mean (scaled_column m m logmp i))))).
  { intros i Hi. rewrite <- t_mah_nth by exact Hi. apply nth_error_nth'. unfold t_mah. rewrite <- len_ok_log. now rewrite Ht. }
  unfold interp_val. rewrite (interp_between lgt t_mah (len_ok_log xmean SM) Hs j x u v _ _ Hu Hv Hx (N j ltac:(lia)) (N (S j) Bj)).
  reflexivity.
Qed.

Lemma last_scaled x : In x (scaled_column m m logmp (n - 1)) -> x = pow10 logmp.
Proof.
  intros H. unfold scaled_column in H. apply in_map_iff in H. destruct H as ([r1 r2] & <- & H). cbn [fst snd].
  assert (r1 = r2). { clear -H. induction m as [|y l IH]; cbn in H; [easy|]. destruct H as [H|H]; [congruence|now apply IH]. }
  subst r2. pose proof (in_combine_l _ _ _ _ H) as H1. pose proof (last_pos n m Hn Hm Hpos r1 H1) as P.
  rewrite last_nth, (Hm r1 H1) in *. field. lra.
Qed.
End Measure.

Lemma variance_const c l : l <> [] -> (forall x, In x l -> x = c) -> variance_of l = 0.
Proof. intros H1 H2. rewrite <- deviation_sq by exact H1. rewrite (deviation_const c l H1 H2). ring. Qed.

(** ** Rescaled target histories *)

Lemma rescale_target_fin row l lgm : last_is row l ->
  rescale_target_log_mah (map Fin row) (Fin lgm) = Ok (map Fin (map (fun x => x - (l - lgm)) row)).
Proof.
  intros H. unfold rescale_target_log_mah. rewrite (proj2 (getlast_spec _ _) (last_map Fin row l H)). cbn [bind].
  f_equal. rewrite !map_map. reflexivity.
Qed.
