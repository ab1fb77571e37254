(** Lemmas on the peak times of whole populations. *)

From Coq Require Import Reals String List Bool Arith Lia Lra.
From Verif Require Import Model_Num RealAux Model_Base Model_Kernels Model_Utils Model_PopBase Model_PopData
  Model_PopParams Model_PopKernels Model_PopMC Model_CompFit Model_TpeakPop Spec_Pop Spec_PopMC Spec_TruncNorm
  Spec_TpeakPop Proofs_PopTpeak Proofs_PopKernels Proofs_PopMC Proofs_PopMC2 Proofs_CompFit.
Import ListNotations.
Local Open Scope R_scope.
Local Open Scope list_scope.

Notation TN := truncnorm_cdf_R.

Lemma split_length k n : List.length (split k n) = n.
Proof. unfold split. now rewrite map_length, seq_length. Qed.

Lemma vmap3_draws {X Y} (f : X -> Y -> key -> mc R) (g : X -> Y -> key -> R) (h : list (X * Y)) k :
  (forall x y q, In (x, y) h -> f x y q = (Ok (g x y q), [Uniform q])) ->
  vmap3 f (map fst h) (map snd h) (split k (List.length (map fst h))) =
    (Ok (map (fun xq => g (fst (fst xq)) (snd (fst xq)) (snd xq)) (combine h (split k (List.length h)))),
     map Uniform (split k (List.length h))).
Proof.
  intros F. unfold vmap3. rewrite !map_length, split_length, !Nat.eqb_refl. cbn [andb].
  remember (split k (List.length h)) as qs eqn:Eq. assert (L : List.length qs = List.length h) by (subst; apply split_length).
  clear Eq. revert qs L. induction h as [|[x y] h IH]; intros [|q qs] L; try discriminate; [reflexivity|].
  cbn [map fst snd combine mseq]. rewrite F by now left.
  specialize (IH (fun a b c H => F a b c (or_intror H)) qs ltac:(cbn in L; lia)).
  unfold mbind. cbn [fst snd]. rewrite IH. cbn [fst snd mret app]. now rewrite app_nil_r.
Qed.

Lemma nth_draws {X} (g : X -> key -> R) (h : list X) k i x : nth_error h i = Some x ->
  nth_error (map (fun xq => g (fst xq) (snd xq)) (combine h (split k (List.length h)))) i =
    Some (g x (Split k (List.length h) i)).
Proof.
  intros H. rewrite nth_error_map.
  assert (Hi : (i < List.length h)%nat) by (apply nth_error_Some; congruence).
  assert (E : nth_error (combine h (split k (List.length h))) i = Some (x, Split k (List.length h) i)).
  { assert (S : nth_error (split k (List.length h)) i = Some (Split k (List.length h) i)).
    { unfold split. rewrite nth_error_map, nth_error_nth' with (d := 0%nat) by (now rewrite seq_length).
      now rewrite seq_nth by exact Hi. }
    revert S. generalize (split k (List.length h)) as qs. generalize (Split k (List.length h) i) as q.
    clear Hi. revert i H. induction h as [|y h IH]; intros [|i] H q [|q' qs] S; try discriminate.
    - cbn in *. congruence.
    - cbn in *. now apply IH. }
  now rewrite E.
Qed.

Lemma elementwise_points {X Y} (f : R -> R -> res Y) (g : R -> R -> Y) (a b : X -> R) (h : list X) (d : X) :
  (forall x y, f x y = Ok (g x y)) ->
  elementwise f (Arr (map a h)) (Arr (map b h)) = Ok (map (fun x => g (a x) (b x)) h).
Proof.
  intros F. unfold elementwise. rewrite extent2. cbn [bind].
  rewrite (collect_ok _ (fun i => g (entry (Arr (map a h)) i) (entry (Arr (map b h)) i))) by (intros; apply F).
  f_equal. apply (map_points h d). intros i Hi. now rewrite !(entry_map _ h d) by exact Hi.
Qed.

Lemma scale_by_points {X} (u b : X -> R) (h : list X) (d : X) :
  scale_by (map u h) (Arr (map b h)) = map (fun x => u x * b x) h.
Proof.
  unfold scale_by. rewrite map_length.
  assert (E : forall (l : list X) pre, h = pre ++ l ->
    map (fun ia : nat * R => (snd ia * entry (Arr (map b h)) (fst ia))%num) (combine (seq (List.length pre) (List.length l)) (map u l))
    = map (fun x => u x * b x) l).
  { induction l as [|x l IH]; intros pre Hh; [reflexivity|]. cbn [List.length seq map combine fst snd]. f_equal.
    - rewrite (entry_map b h d) by (rewrite Hh, app_length; cbn; lia).
      rewrite Hh, app_nth2 by lia. now rewrite Nat.sub_diag.
    - specialize (IH (pre ++ [x])). rewrite app_length in IH. cbn [List.length] in IH. rewrite Nat.add_1_r in IH. apply IH.
      rewrite Hh, <- app_assoc. reflexivity. }
  exact (E h [] eq_refl).
Qed.

Lemma scale_by_num (l : list R) (t : R) : scale_by l (Num1 t) = map (fun x => x * t) l.
Proof.
  unfold scale_by. generalize 0%nat. induction l as [|x l IH]; intros n; [reflexivity|].
  cbn [List.length seq map combine fst snd]. f_equal. apply IH.
Qed.

Section Pop.
  Variable G : rng R.

  Lemma single_draw q ls : mc_tp_pdf_singlesat TN G q ls = (Ok (utp_sat_of_uran TN ls (uniform G q)), [Uniform q]).
  Proof. reflexivity. Qed.

  Lemma satpop_eval k (ls : list (R * R)) :
    mc_tp_pdf_satpop TN G k (map fst ls) (map snd ls) =
      (Ok (map (fun xq => utp_sat_of_uran TN (fst xq) (uniform G (snd xq))) (combine ls (split k (List.length ls)))),
       map Uniform (split k (List.length ls))).
  Proof.
    unfold mc_tp_pdf_satpop.
    rewrite (vmap3_draws _ (fun loc scale q => utp_sat_of_uran TN (loc, scale) (uniform G q))).
    - f_equal. f_equal. apply map_ext. intros [[a b] q]. reflexivity.
    - intros x y q _. apply single_draw.
  Qed.
End Pop.

Lemma sat_fun p : provides TP_SATS p -> exists loc scale : R -> R -> R,
  (forall lgm t, get_utp_loc p lgm t = Ok (loc lgm t)) /\ (forall lgm t, get_utp_scale p lgm t = Ok (scale lgm t)).
Proof.
  intros Hp. exists (fun l t => match get_utp_loc p l t with Ok v => v | Err _ => 0 end).
  exists (fun l t => match get_utp_scale p l t with Ok v => v | Err _ => 0 end).
  split; intros l t; destruct (sat_loc_scale p l t Hp) as (a & b & E1 & E2 & _); [now rewrite E1|now rewrite E2].
Qed.

Lemma cen_fun p t0 : provides TPCENS p -> exists f : R -> R -> R * R,
  forall lgm t, get_singlepdf_params p lgm t t0 = Ok (f lgm t).
Proof.
  intros Hp. exists (fun l t => match get_singlepdf_params p l t t0 with Ok v => v | Err _ => (0, 0) end).
  intros l t. destruct (cen_trunc_eval p l t t0 Hp) as (s & _ & E & _). now rewrite E.
Qed.

Lemma combine_map_l {X Y Z} (f : X -> Y) (l : list X) (q : list Z) :
  combine (map f l) q = map (fun xq => (f (fst xq), snd xq)) (combine l q).
Proof. revert q. induction l as [|x l IH]; intros [|z q]; cbn; [reflexivity..|]. f_equal. apply IH. Qed.

Lemma scale_by_combine {Z} (u : R * R -> Z -> R) (h : list (R * R)) (q : list Z) : List.length q = List.length h ->
  scale_by (map (fun xq => u (fst xq) (snd xq)) (combine h q)) (Arr (map snd h)) =
  map (fun xq => u (fst xq) (snd xq) * snd (fst xq)) (combine h q).
Proof.
  intros L. replace (map snd h) with (map (fun xq : R * R * Z => snd (fst xq)) (combine h q)).
  - destruct h as [|x h]; [reflexivity|]. destruct q as [|z q]; [discriminate|].
    apply (scale_by_points (fun xq : R * R * Z => u (fst xq) (snd xq)) (fun xq => snd (fst xq)) _ (x, z)).
  - revert q L. induction h as [|x h IH]; intros [|z q] L; try discriminate; [reflexivity|]. cbn. f_equal. apply IH. cbn in L. lia.
Qed.

Lemma sats_eval (G : rng R) p k (h : list (R * R)) : provides TP_SATS p ->
  exists u : R * R -> key -> R,
    (forall x q, mc_tpeak_singlesat TN G p q (fst x) (snd x) = (Ok (u x q), [Uniform q])) /\
    mc_tpeak_sats TN G p k (Arr (map fst h)) (Arr (map snd h)) =
      (Ok (map (fun xq => u (fst xq) (snd xq)) (combine h (split k (List.length h)))),
       map Uniform (split k (List.length h))).
Proof.
  intros Hp. destruct (sat_fun p Hp) as (loc & scale & E1 & E2).
  exists (fun x q => utp_sat_of_uran TN (loc (fst x) (snd x), scale (fst x) (snd x)) (uniform G q) * snd x). split.
  - intros [l t] q. unfold mc_tpeak_singlesat, tpeak_sat_of_uran. unfold draw_uniform, mbind. cbn [fst snd].
    rewrite E1. cbn [bind]. rewrite E2. reflexivity.
  - unfold mc_tpeak_sats, mc_utp_pdf.
    rewrite (elementwise_points _ _ fst snd h (0, 0) E1), (elementwise_points _ _ fst snd h (0, 0) E2).
    pose proof (satpop_eval G k (map (fun x => (loc (fst x) (snd x), scale (fst x) (snd x))) h)) as S.
    rewrite !map_map in S. cbn [fst snd] in S. rewrite map_length in S.
    unfold mbind at 1 2 3. cbn [fst snd mlift app]. 
    change (map (fun x => loc (fst x) (snd x)) h) with (map (fun x : R * R => loc (fst x) (snd x)) h) in S.
    rewrite S. cbn [fst snd mret app]. rewrite app_nil_r. f_equal. f_equal.
    rewrite combine_map_l, map_map. cbn [fst snd].
    apply (scale_by_combine (fun x q => utp_sat_of_uran TN (loc (fst x) (snd x), scale (fst x) (snd x)) (uniform G q))).
    apply split_length.
Qed.

Lemma cens_trunc_eval (G : rng R) p k (h : list (R * R)) t0 : provides TPCENS p ->
  exists u : R * R -> key -> R,
    (forall x q, mc_tpeak_trunc_singlecen TN G p q (fst x) (snd x) t0 = (Ok (u x q), [Uniform q])) /\
    mc_tpeak_cens TN G p k (Arr (map fst h)) (Arr (map snd h)) t0 =
      (Ok (map (fun xq => u (fst xq) (snd xq)) (combine h (split k (List.length h)))),
       map Uniform (split k (List.length h))).
Proof.
  intros Hp. destruct (cen_fun p t0 Hp) as (f & E).
  exists (fun x q => utp_sat_of_uran TN (f (fst x) (snd x)) (uniform G q) * t0). split.
  - intros [l t] q. unfold mc_tpeak_trunc_singlecen. rewrite E. reflexivity.
  - unfold mc_tpeak_cens. rewrite (elementwise_points _ _ fst snd h (0, 0) E).
    pose proof (satpop_eval G k (map (fun x => f (fst x) (snd x)) h)) as S. rewrite map_length in S.
    unfold mbind. cbn [fst snd mlift app]. rewrite S. cbn [fst snd mret app]. rewrite app_nil_r. f_equal. f_equal.
    rewrite scale_by_num, combine_map_l, !map_map. reflexivity.
Qed.

Lemma cenpop_eval (G : rng R) p k (h : list (R * R)) t0 : provides TPCENS_FLEX p ->
  exists u : R * R -> key -> R,
    (forall x q, mc_tpeak_singlecen G p (fst x) (snd x) q t0 = (Ok (u x q), [Uniform q])) /\
    mc_t_peak_cenpop G p (Arr (map fst h)) (Arr (map snd h)) k t0 =
      (Ok (map (fun xq => u (fst xq) (snd xq)) (combine h (split k (List.length h)))),
       map Uniform (split k (List.length h))).
Proof.
  intros Hp.
  exists (fun x q => match tpeak_cen_of_uran p (fst x) (snd x) t0 (uniform G q) with Ok v => v | Err _ => 0 end).
  assert (E : forall l t q, mc_tpeak_singlecen G p l t q t0 =
    (Ok (match tpeak_cen_of_uran p l t t0 (uniform G q) with Ok v => v | Err _ => 0 end), [Uniform q])).
  { intros l t q. unfold mc_tpeak_singlecen, draw_uniform, mbind. cbn [fst snd].
    unfold tpeak_cen_of_uran. destruct (utp_of_uran_eval p l t Hp) as (x0 & U). destruct (U (uniform G q)) as [-> _]. reflexivity. }
  split.
  - intros x q. apply E.
  - unfold mc_t_peak_cenpop.
    rewrite (vmap3_draws _ (fun l t q => match tpeak_cen_of_uran p l t t0 (uniform G q) with Ok v => v | Err _ => 0 end)).
    + reflexivity.
    + intros x y q _. apply E.
Qed.

Lemma draws_spec (single : key -> R -> R -> mc R) (run : mc (list R)) (u : R * R -> key -> R) k (h : list (R * R)) :
  (forall x q, single q (fst x) (snd x) = (Ok (u x q), [Uniform q])) ->
  run = (Ok (map (fun xq => u (fst xq) (snd xq)) (combine h (split k (List.length h)))), map Uniform (split k (List.length h))) ->
  one_draw_per_halo single k h run.
Proof.
  intros S E. eexists. rewrite E. split; [|split].
  - f_equal. unfold split. rewrite map_map. reflexivity.
  - now rewrite map_length, combine_length, split_length, Nat.min_id.
  - intros i lgm t N. exists (u (lgm, t) (Split k (List.length h) i)). split.
    + apply (nth_draws u h k i (lgm, t) N).
    + apply (S (lgm, t)).
Qed.

Lemma elementwise_right {Y} (f : R -> R -> res Y) (l : list R) a :
  elementwise f (Arr l) (Num1 a) = elementwise f (Arr l) (Arr (repeat a (List.length l))).
Proof.
  unfold elementwise, extent, lengths. cbn [flat_map app forallb]. rewrite repeat_length, Nat.eqb_refl. cbn [andb bind].
  apply collect_ext. intros i Hi. apply in_seq in Hi. now rewrite column_repeat by lia.
Qed.

Lemma elementwise_left {Y} (f : R -> R -> res Y) (l : list R) a :
  elementwise f (Num1 a) (Arr l) = elementwise f (Arr (repeat a (List.length l))) (Arr l).
Proof.
  unfold elementwise, extent, lengths. cbn [flat_map app forallb]. rewrite repeat_length, Nat.eqb_refl. cbn [andb bind].
  apply collect_ext. intros i Hi. apply in_seq in Hi. now rewrite column_repeat by lia.
Qed.

Lemma collect_length {X Y} (f : X -> res Y) l r : collect f l = Ok r -> List.length r = List.length l.
Proof.
  revert r. induction l as [|x l IH]; intros r H; cbn in H; [injection H as <-; reflexivity|].
  destruct (f x); [|discriminate]. cbn in H. destruct (collect f l) as [q|]; [|discriminate]. injection H as <-.
  cbn. f_equal. now apply IH.
Qed.

Lemma scale_by_repeat (q : list R) a n : (List.length q <= n)%nat -> scale_by q (Num1 a) = scale_by q (Arr (repeat a n)).
Proof.
  intros L. unfold scale_by. apply map_ext_in. intros [i x] H. apply in_combine_l in H. apply in_seq in H. cbn [fst snd].
  f_equal. symmetry. apply column_repeat. lia.
Qed.

Lemma vmap3_length {X Y W} (f : X -> Y -> key -> mc W) a b c r tr : vmap3 f a b c = (Ok r, tr) -> List.length r = List.length a.
Proof.
  unfold vmap3. destruct (Nat.eqb_spec (List.length a) (List.length b)) as [Lb|]; [|discriminate].
  destruct (Nat.eqb_spec (List.length a) (List.length c)) as [Lc|]; [|discriminate]. cbn [andb]. intros H.
  destruct (mseq_map_inv _ _ _ _ H) as [L _]. rewrite L, !combine_length. lia.
Qed.

Lemma elementwise_length {Y} (f : R -> R -> res Y) (l m : list R) r : elementwise f (Arr l) (Arr m) = Ok r ->
  List.length r = List.length l.
Proof.
  unfold elementwise, extent, lengths. cbn [flat_map app forallb].
  destruct (Nat.eqb (List.length l) (List.length m) && true)%bool; [|discriminate]. cbn [bind].
  intros H. apply collect_length in H. now rewrite seq_length in H.
Qed.

Lemma sats_scale_repeat (G : rng R) p k (l : list R) a :
  mbind (mc_utp_pdf TN G p k (Arr l) (Num1 a)) (fun utp => mret (scale_by utp (Num1 a))) =
  mbind (mc_utp_pdf TN G p k (Arr l) (Arr (repeat a (List.length l)))) (fun utp => mret (scale_by utp (Arr (repeat a (List.length l))))).
Proof.
  unfold mc_utp_pdf. rewrite !elementwise_right.
  destruct (elementwise (get_utp_loc p) _ _) as [loc|] eqn:E1; [|reflexivity].
  destruct (elementwise (get_utp_scale p) _ _) as [scale|] eqn:E2; [|reflexivity].
  apply elementwise_length in E1.
  unfold mlift, mbind at 2 3 5 6. cbn [fst snd app].
  destruct (mc_tp_pdf_satpop TN G k loc scale) as [[u|] tr] eqn:E; [|reflexivity].
  apply vmap3_length in E. cbn [mbind fst snd]. unfold mbind. cbn [fst snd].
  rewrite (scale_by_repeat u a (List.length l)) by lia. reflexivity.
Qed.
