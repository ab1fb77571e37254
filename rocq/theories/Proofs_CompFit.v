(** Lemmas on the losses and fitters of single population components. *)

From Coq Require Import Reals String List Bool Arith Lia Lra.
From Coquelicot Require Import Coquelicot.
From Verif Require Import Model_Num RealAux Model_Base Model_Kernels Model_Utils Model_PopBase Model_PopData
  Model_PopParams Model_PopKernels Model_PopMC Model_Adam Model_CompFit Proofs_Kernels Spec_Kernels Spec_Utils Spec_Pop
  Spec_PopMC Spec_TruncNorm Spec_Fitter Spec_CompFit Proofs_Adam Proofs_Fitter2 Proofs_Fitter3
  Proofs_PopBase Proofs_PopParams Proofs_PopAll Proofs_PopTpeak Proofs_PopKernels Proofs_PopProps Proofs_PopMC Proofs_PopMC2 Proofs_PopLoss.
Import ListNotations.
Local Open Scope R_scope.
Local Open Scope list_scope.

(** ** Means *)

Lemma fold_left_plus l : forall a : R, fold_left Rplus l a = a + fold_right Rplus 0 l.
Proof. induction l as [|x l IH]; intros a; cbn; [lra|]. rewrite IH. lra. Qed.

Lemma nmean_mean (l : list R) : nmean l = mean l.
Proof.
  unfold nmean, nsum, mean. change (fold_left nadd l (nconst 0)) with (fold_left Rplus l 0).
  rewrite fold_left_plus. change (nconst (INR (List.length l))) with (INR (List.length l)).
  change (0 + fold_right Rplus 0 l)%R with (0 + fold_right Rplus 0 l).
  unfold ndiv; cbn. now rewrite Rplus_0_l.
Qed.

Lemma mse_pairs (l : list (R * R)) : mse (map fst l) (map snd l) = Ok (mean_sq l).
Proof.
  unfold mse. rewrite !map_length, Nat.eqb_refl. f_equal. unfold pop_mse. rewrite nmean_mean. unfold mean_sq. f_equal.
  induction l as [|[a b] l IH]; [reflexivity|]. cbn. f_equal; [ring|exact IH].
Qed.

Lemma mean_zero (l : list R) : l <> [] -> (forall x, In x l -> 0 <= x) ->
  0 <= mean l /\ (mean l = 0 <-> forall x, In x l -> x = 0).
Proof. rewrite <- nmean_mean. apply nmean_nonneg. Qed.

Lemma mean_sq_facts (l : list (R * R)) : l <> [] ->
  0 <= mean_sq l /\ (mean_sq l = 0 <-> forall x y, In (x, y) l -> x = y).
Proof.
  intros Hl. unfold mean_sq. destruct (mean_zero (map (fun xy => (fst xy - snd xy) * (fst xy - snd xy)) l)) as [H1 H2].
  - destruct l; [congruence|discriminate].
  - intros x Hx. apply in_map_iff in Hx as (a & <- & _). apply Rle_0_sqr.
  - split; [exact H1|]. rewrite H2. split.
    + intros H x y Hi. specialize (H ((x - y) * (x - y))). apply Rmult_integral in H; [destruct H; lra|].
      apply in_map_iff. exists (x, y). auto.
    + intros H z Hz. apply in_map_iff in Hz as ([x y] & <- & Hi). cbn. rewrite (H x y Hi). ring.
Qed.

Lemma mean_abs_facts (l : list (R * R)) : l <> [] ->
  0 <= mean_abs l /\ (mean_abs l = 0 <-> forall x y, In (x, y) l -> x = y).
Proof.
  intros Hl. unfold mean_abs. destruct (mean_zero (map (fun xy => Rabs (fst xy - snd xy)) l)) as [H1 H2].
  - destruct l; [congruence|discriminate].
  - intros x Hx. apply in_map_iff in Hx as (a & <- & _). apply Rabs_pos.
  - split; [exact H1|]. rewrite H2. split.
    + intros H x y Hi. assert (E : Rabs (x - y) = 0). { apply H. apply in_map_iff. exists (x, y). auto. }
      destruct (Req_dec (x - y) 0) as [|Hn]; [lra|]. now apply Rabs_no_R0 in Hn.
    + intros H z Hz. apply in_map_iff in Hz as ([x y] & <- & Hi). cbn. rewrite (H x y Hi).
      replace (y - y) with 0 by ring. apply Rabs_R0.
Qed.

(** ** Columns *)

Lemma collect_ok {X Y} (f : X -> res Y) (g : X -> Y) l : (forall x, In x l -> f x = Ok (g x)) -> collect f l = Ok (map g l).
Proof.
  induction l as [|x l IH]; intros H; [reflexivity|]. cbn. rewrite H by now left. cbn.
  rewrite IH by (intros; apply H; now right). reflexivity.
Qed.

Lemma collect_ext {X Y} (f g : X -> res Y) l : (forall x, In x l -> f x = g x) -> collect f l = collect g l.
Proof.
  induction l as [|x l IH]; intros H; [reflexivity|]. cbn. rewrite H by now left.
  rewrite IH by (intros; apply H; now right). reflexivity.
Qed.

Lemma nth_map_seq {X} (l : list X) (d : X) : map (fun i => nth i l d) (seq 0 (List.length l)) = l.
Proof.
  induction l as [|x l IH]; [reflexivity|]. cbn [List.length seq map nth]. f_equal.
  rewrite <- seq_shift, map_map. exact IH.
Qed.

(** A function of the entries of some columns is a function of the points. *)
Lemma map_points {X Y} (pts : list X) (d : X) (f : X -> Y) (g : nat -> Y) :
  (forall i, (i < List.length pts)%nat -> g i = f (nth i pts d)) -> map g (seq 0 (List.length pts)) = map f pts.
Proof.
  intros H. rewrite <- (nth_map_seq pts d) at 2. rewrite map_map. apply map_ext_in.
  intros i Hi. apply in_seq in Hi. apply H. lia.
Qed.

Lemma entry_map {X} (f : X -> R) pts (d : X) i : (i < List.length pts)%nat -> entry (Arr (map f pts)) i = f (nth i pts d).
Proof. intros H. cbn [entry]. rewrite (nth_indep _ _ (f d)) by now rewrite map_length. apply map_nth. Qed.

Lemma column_map {X} (f : X -> R) pts : column (Arr (map f pts)) (List.length pts) = map f pts.
Proof. unfold column. cbn [entry]. rewrite <- (map_length f pts). apply nth_map_seq. Qed.

Lemma extent2 {X} (f g : X -> R) pts : extent [Arr (map f pts); Arr (map g pts)] = Ok (List.length pts).
Proof. unfold extent. cbn. now rewrite !map_length, Nat.eqb_refl. Qed.
Lemma extent3 {X} (f g h : X -> R) pts : extent [Arr (map f pts); Arr (map g pts); Arr (map h pts)] = Ok (List.length pts).
Proof. unfold extent. cbn. now rewrite !map_length, !Nat.eqb_refl. Qed.
Lemma extent4 {X} (f g h k : X -> R) pts :
  extent [Arr (map f pts); Arr (map g pts); Arr (map h pts); Arr (map k pts)] = Ok (List.length pts).
Proof. unfold extent. cbn. now rewrite !map_length, !Nat.eqb_refl. Qed.

Lemma map_pair_fst {X} (f g : X -> R) l : map f l = map fst (map (fun x => (f x, g x)) l).
Proof. rewrite map_map. reflexivity. Qed.
Lemma map_pair_snd {X} (f g : X -> R) l : map g l = map snd (map (fun x => (f x, g x)) l).
Proof. rewrite map_map. reflexivity. Qed.

Lemma mse_map {X} (f g : X -> R) l : mse (map f l) (map g l) = Ok (mean_sq (map (fun x => (f x, g x)) l)).
Proof. rewrite (map_pair_fst f g), (map_pair_snd f g) at 1. apply mse_pairs. Qed.

Lemma mean_sq_swap {X} (f g : X -> R) l : mean_sq (map (fun x => (f x, g x)) l) = mean_sq (map (fun x => (g x, f x)) l).
Proof. unfold mean_sq. rewrite !map_map. f_equal. apply map_ext. intros x. cbn. ring. Qed.

(** ** Losses *)

Lemma uparam_kernels_ok c pred : In (c, pred) uparam_kernels ->
  wfc c /\ forall p, legal_for c p -> exists f, forall a t s, pred p a t s = Ok (f a t s).
Proof.
  intros H. assert (W : wfc c).
  {
    cbn in H. destruct H as [E|[E|[E|[E|[E|[]]]]]]; injection E as <- _;
      [exact wfc_EARLY_INDEX_ALPHA|exact wfc_EARLY_INDEX_BETA|exact wfc_EARLY_INDEX_POP|exact wfc_LOGTC_EARLY|exact wfc_LOGTC_LATE]. }
  split; [exact W|]. intros p Hp. apply legal_provides in Hp; [|apply W].
  assert (K : forall a t s, exists v, pred p a t s = Ok v).
  { intros a t s. cbn in H. destruct H as [E|[E|[E|[E|[E|[]]]]]]; injection E as <- <-.
    - destruct (early_index_range "_alpha" _ p a t s ltac:(cbn; auto) Hp) as (v & ? & _); eauto.
    - destruct (early_index_range "_beta" _ p a t s ltac:(cbn; auto) Hp) as (v & ? & _); eauto.
    - destruct (early_index_range "" _ p a t s ltac:(cbn; auto) Hp) as (v & ? & _); eauto.
    - destruct (logtc_range "_early" _ p a t s ltac:(cbn; auto) Hp) as (v & ? & _); eauto.
    - destruct (logtc_range "_late" _ p a t s ltac:(cbn; auto) Hp) as (v & ? & _); eauto. }
  exists (fun a t s => match pred p a t s with Ok v => v | Err _ => 0 end).
  intros a t s. destruct (K a t s) as (v & ->). reflexivity.
Qed.

Lemma map_fst_combine {X Y} (l : list X) : forall l' : list Y, List.length l = List.length l' -> map fst (combine l l') = l.
Proof. induction l as [|x l IH]; intros [|y l'] H; try discriminate; [reflexivity|]. cbn. f_equal. apply IH. now injection H. Qed.

Lemma make_unames c (us : list R) : List.length us = List.length (c_pdict c) ->
  make (c_unames c) us = Ok (combine (c_unames c) us) /\ unbounded_for c (combine (c_unames c) us).
Proof.
  intros H. assert (L : List.length (c_unames c) = List.length us) by (unfold c_unames, c_names; now rewrite !map_length).
  split.
  - unfold make. now rewrite L, Nat.eqb_refl.
  - unfold unbounded_for, shaped. change (map (fun k => ("u_" ++ k)%string) (map fst (c_pdict c))) with (c_unames c).
    apply map_fst_combine. exact L.
Qed.

Lemma uparam_loss_eval c pred us (pts : list (R * R * R * R)) : In (c, pred) uparam_kernels ->
  List.length us = List.length (c_pdict c) ->
  exists p f, legal_for c p /\ get_unbounded_params c p = Ok (combine (c_unames c) us) /\
    (forall a t s, pred p a t s = Ok (f a t s)) /\
    uparam_loss_kern c pred (PArr us) (columns4 pts) =
      Ok (mean_sq (map (fun x => (f (fst (fst (fst x))) (snd (fst (fst x))) (snd (fst x)), snd x)) pts)).
Proof.
  intros H HL. destruct (uparam_kernels_ok c pred H) as [W K].
  destruct (make_unames c us HL) as [M U].
  destruct (acts_bijection c _ _ W (acts_single c W)) as [B _].
  destruct (B _ U) as (p & E1 & Lp & E2). destruct (K p Lp) as (f & F).
  exists p, f. refine (conj Lp (conj E2 (conj F _))).
  unfold uparam_loss_kern. cbn [star]. rewrite M. cbn [bind]. rewrite E1. cbn [bind]. unfold columns4.
  rewrite extent4. cbn [bind].
  rewrite (collect_ok _ (fun i => f (entry (Arr (map (fun x => fst (fst (fst x))) pts)) i)
    (entry (Arr (map (fun x => snd (fst (fst x))) pts)) i) (entry (Arr (map (fun x => snd (fst x)) pts)) i)))
    by (intros; apply F).
  cbn [bind].
  rewrite (map_points pts (0, 0, 0, 0) (fun x => f (fst (fst (fst x))) (snd (fst (fst x))) (snd (fst x)))).
  - rewrite column_map. apply mse_map.
  - intros i Hi. now rewrite !(entry_map _ pts (0, 0, 0, 0)) by exact Hi.
Qed.

Lemma global_kernels_ok c pred p : In (c, pred) global_kernels -> provides c p ->
  exists f, forall t s, pred p t s = Ok (f t s).
Proof.
  intros H Hp.
  assert (K : forall t s, exists v, pred p t s = Ok v).
  { intros t s. cbn in H.
    destruct H as [E|[E|[E|[E|[E|[E|[E|[E|[]]]]]]]]]; injection E as <- <-.
    - destruct (c0_pos "_early" _ LGM0_C1_EARLY p t s ltac:(cbn; auto) Hp) as (v & ? & _); eauto.
    - destruct (c1_pos "_early" LGM0_C0_EARLY _ p t s ltac:(cbn; auto) Hp) as (v & ? & _); eauto.
    - destruct (c0_pos "_late" _ LGM0_C1_LATE p t s ltac:(cbn; auto) Hp) as (v & ? & _); eauto.
    - destruct (c1_pos "_late" LGM0_C0_LATE _ p t s ltac:(cbn; auto) Hp) as (v & ? & _); eauto.
    - destruct (c0_pos "_early_sats" _ LGM0_C1_EARLY_SATS p t s ltac:(cbn; auto) Hp) as (v & ? & _); eauto.
    - destruct (c1_pos "_early_sats" LGM0_C0_EARLY_SATS _ p t s ltac:(cbn; auto) Hp) as (v & ? & _); eauto.
    - destruct (c0_pos "_late_sats" _ LGM0_C1_LATE_SATS p t s ltac:(cbn; auto 6) Hp) as (v & ? & _); eauto.
    - destruct (c1_pos "_late_sats" LGM0_C0_LATE_SATS _ p t s ltac:(cbn; auto 6) Hp) as (v & ? & _); eauto. }
  exists (fun t s => match pred p t s with Ok v => v | Err _ => 0 end).
  intros t s. destruct (K t s) as (v & ->). reflexivity.
Qed.

Lemma scalar_loss_eval pred p f (pts : list (R * R * R)) : (forall t s, pred p t s = Ok (f t s)) ->
  loss_kern_scalar pred (PTup p) (columns3 pts) =
    Ok (mean_sq (map (fun x => (f (fst (fst x)) (snd (fst x)), snd x)) pts)).
Proof.
  intros F. unfold loss_kern_scalar, columns3. cbn [with_fields bind]. rewrite extent3. cbn [bind].
  rewrite (collect_ok _ (fun i => f (entry (Arr (map (fun x => fst (fst x)) pts)) i)
    (entry (Arr (map (fun x => snd (fst x)) pts)) i))) by (intros; apply F).
  cbn [bind].
  rewrite (map_points pts (0, 0, 0) (fun x => f (fst (fst x)) (snd (fst x)))).
  - rewrite column_map, mse_map. f_equal. apply (mean_sq_swap (fun x => snd x)).
  - intros i Hi. now rewrite !(entry_map _ pts (0, 0, 0)) by exact Hi.
Qed.

Definition set_loss (f : R -> R -> R) (pts : list (R * R * R)) : R :=
  mean_sq (map (fun x => (f (fst (fst x)) (snd (fst x)), snd x)) pts).

Lemma global_loss_from_eval pred p f sets : (forall t s, pred p t s = Ok (f t s)) -> forall a,
  global_loss_from a pred (PTup p) (map columns3 sets) = Ok (a + fold_right Rplus 0 (map (set_loss f) sets)).
Proof.
  intros F. induction sets as [|pts sets IH]; intros a; cbn [map global_loss_from fold_right].
  - f_equal. ring.
  - rewrite (scalar_loss_eval pred p f pts F). cbn [bind]. rewrite IH. f_equal.
    change (nadd a ?x) with (a + x). unfold set_loss at 2. ring.
Qed.

Lemma global_loss_eval pred p f sets : (forall t s, pred p t s = Ok (f t s)) ->
  global_loss_kern pred (PTup p) (map columns3 sets) = Ok (fold_right Rplus 0 (map (set_loss f) sets)).
Proof. intros F. unfold global_loss_kern. rewrite (global_loss_from_eval _ _ _ _ F). f_equal. cbn. ring. Qed.

Lemma sum_zero (l : list R) : (forall x, In x l -> 0 <= x) ->
  0 <= fold_right Rplus 0 l /\ (fold_right Rplus 0 l = 0 <-> forall x, In x l -> x = 0).
Proof.
  induction l as [|a l IH]; intros H; cbn.
  - split; [lra|]. split; [intros _ x []|reflexivity].
  - destruct IH as [I1 I2]; [intros; apply H; now right|]. pose proof (H a (or_introl eq_refl)) as Ha.
    split; [lra|]. split.
    + intros E x [<-|Hx]; [lra|]. apply I2; [lra|exact Hx].
    + intros E. rewrite (E a) by now left. rewrite (proj2 I2); [lra|]. intros; apply E; now right.
Qed.

Lemma set_loss_facts f pts : pts <> [] ->
  0 <= set_loss f pts /\ (set_loss f pts = 0 <-> forall t s y, In (t, s, y) pts -> f t s = y).
Proof.
  intros Hp. unfold set_loss.
  destruct (mean_sq_facts (map (fun x => (f (fst (fst x)) (snd (fst x)), snd x)) pts)) as [A B].
  { destruct pts; [congruence|discriminate]. }
  split; [exact A|]. rewrite B. split.
  - intros H t s y Hi. apply H. apply in_map_iff. exists (t, s, y). auto.
  - intros H x y Hi. apply in_map_iff in Hi as ([[t s] z] & E & Hi). cbn in E. injection E as <- <-. now apply H.
Qed.

Lemma global_loss_array (pred : rec R -> R -> R -> res R) x data : data <> [] ->
  global_loss_kern pred (PArr x) data = Err AttributeError.
Proof. destruct data as [|[[a b] c] r]; [congruence|]. intros _. reflexivity. Qed.

(** A number in place of a column. *)
Lemma column_repeat (a : R) n i : (i < n)%nat -> entry (Arr (repeat a n)) i = entry (Num1 a) i.
Proof.
  intros H. cbn [entry]. revert i H. induction n as [|n IH]; intros i H; [lia|].
  destruct i; cbn; [reflexivity|]. apply IH. lia.
Qed.

(** ** Densities *)

Lemma density_truncated loc scale x : 0 < scale ->
  tp_pdf_kern truncnorm_pdf_R x (loc, scale) = truncated_normal (1/10) 1 loc scale x.
Proof.
  intros Hs. set (a := (1/10 - loc) / scale). set (b := (1 - loc) / scale).
  change (tp_pdf_kern truncnorm_pdf_R x (loc, scale)) with (truncnorm_pdf_R x a b loc scale).
  unfold truncnorm_pdf_R, truncated_normal. cbv zeta.
  assert (Hi : 0 < / scale) by now apply Rinv_0_lt_compat.
  assert (Q : forall u v, (u - loc) / scale < (v - loc) / scale <-> u < v).
  { intros u v. unfold Rdiv. split; intros H.
    - apply Rmult_lt_reg_r in H; lra.
    - apply Rmult_lt_compat_r; lra. }
  destruct (Rlt_dec ((x - loc) / scale) a) as [l|l]; destruct (Rlt_dec x (1/10)) as [m|m].
  - reflexivity.
  - exfalso. apply m. apply (Q x (1/10)). exact l.
  - exfalso. apply l. apply (Q x (1/10)). exact m.
  - destruct (Rlt_dec b ((x - loc) / scale)) as [l'|l']; destruct (Rlt_dec 1 x) as [m'|m'].
    + reflexivity.
    + exfalso. apply m'. apply (Q 1 x). exact l'.
    + exfalso. apply l'. apply (Q 1 x). exact m'.
    + assert (E : RInt (fun y => exp (- ((y - loc) / scale * ((y - loc) / scale)) / 2)) (1/10) 1
                  = scale * RInt gauss a b).
      { apply is_RInt_unique.
        apply (is_RInt_ext (fun y => scal scale (scal (/ scale) (gauss (/ scale * y + (- loc / scale)))))).
        { intros y _. unfold gauss. replace (/ scale * y + - loc / scale) with ((y - loc) / scale) by (field; lra).
          unfold scal; cbn; unfold mult; cbn. field. lra. }
        apply (is_RInt_scal (V:=R_NormedModule)). apply (is_RInt_comp_lin (V:=R_NormedModule) gauss).
        replace (/ scale * (1/10) + - loc / scale) with a by (unfold a; field; lra).
        replace (/ scale * 1 + - loc / scale) with b by (unfold b; field; lra).
        apply (RInt_correct (V:=R_CompleteNormedModule)). apply gauss_int. }
      rewrite E. change (exp (- ((x - loc) / scale * ((x - loc) / scale)) / 2)) with (gauss ((x - loc) / scale)).
      pose proof (gauss_RInt_pos a b (trunc_ab loc scale Hs)). field. split; lra.
Qed.

Lemma cens_density_truncated loc scale t0 x : 0 < scale -> 0 < t0 ->
  t_peak_cens_pdf_kern truncnorm_pdf_R (loc, scale) x t0
  = truncated_normal (t0/10) t0 (loc * t0) (scale * t0) x.
Proof.
  intros Hs Ht. unfold t_peak_cens_pdf_kern. change (ndiv x t0) with (x / t0).
  change (ndiv ?a t0) with (a / t0). rewrite density_truncated by exact Hs.
  unfold truncated_normal. cbv zeta.
  assert (Hi : 0 < / t0) by now apply Rinv_0_lt_compat.
  assert (Q : forall u v, u / t0 < v <-> u < v * t0).
  { intros u v. split; intros H.
    - apply (Rmult_lt_compat_r t0) in H; [|exact Ht]. unfold Rdiv in H. rewrite Rmult_assoc, Rinv_l in H by lra. lra.
    - apply (Rmult_lt_reg_r t0); [exact Ht|]. unfold Rdiv. rewrite Rmult_assoc, Rinv_l by lra. lra. }
  assert (Q' : forall u v, v < u / t0 <-> v * t0 < u).
  { intros u v. split; intros H.
    - apply (Rmult_lt_compat_r t0) in H; [|exact Ht]. unfold Rdiv in H. rewrite Rmult_assoc, Rinv_l in H by lra. lra.
    - apply (Rmult_lt_reg_r t0); [exact Ht|]. unfold Rdiv. rewrite Rmult_assoc, Rinv_l by lra. lra. }
  destruct (Rlt_dec (x / t0) (1/10)) as [l|l]; destruct (Rlt_dec x (t0/10)) as [m|m].
  - unfold Rdiv. ring.
  - exfalso. apply Q in l. lra.
  - exfalso. apply l, Q. lra.
  - destruct (Rlt_dec 1 (x / t0)) as [l'|l']; destruct (Rlt_dec t0 x) as [m'|m'].
    + unfold Rdiv. ring.
    + exfalso. apply Q' in l'. lra.
    + exfalso. apply l', Q'. lra.
    + set (w := fun y => exp (- ((y - loc) / scale * ((y - loc) / scale)) / 2)).
      set (w' := fun y => exp (- ((y - loc * t0) / (scale * t0) * ((y - loc * t0) / (scale * t0))) / 2)).
      assert (W : forall y, w' y = w (/ t0 * y + 0)).
      { intros y. unfold w, w'. do 3 f_equal.
        replace ((y - loc * t0) / (scale * t0)) with ((/ t0 * y + 0 - loc) / scale) by (field; split; lra). reflexivity. }
      assert (C : forall u v, ex_RInt w u v).
      { intros u v. apply (ex_RInt_continuous (V:=R_CompleteNormedModule)). intros z _. unfold w.
        apply (ex_derive_continuous (K:=R_AbsRing) (V:=R_NormedModule)). auto_derive. lra. }
      assert (E : RInt w' (t0/10) t0 = t0 * RInt w (1/10) 1).
      { apply is_RInt_unique.
        apply (is_RInt_ext (fun y => scal t0 (scal (/ t0) (w (/ t0 * y + 0))))).
        { intros y _. rewrite W. unfold scal; cbn; unfold mult; cbn. field. lra. }
        apply (is_RInt_scal (V:=R_NormedModule)). apply (is_RInt_comp_lin (V:=R_NormedModule) w).
        replace (/ t0 * (t0/10) + 0) with (1/10) by (field; lra).
        replace (/ t0 * t0 + 0) with 1 by (field; lra).
        apply (RInt_correct (V:=R_CompleteNormedModule)). apply C. }
      fold w'.
      change (exp (- ((x - loc * t0) / (scale * t0) * ((x - loc * t0) / (scale * t0))) / 2)) with (w' x).
      rewrite E, (W x). replace (/ t0 * x + 0) with (x / t0) by (field; lra).
      change (exp (- ((x / t0 - loc) / scale * ((x / t0 - loc) / scale)) / 2)) with (w (x / t0)).
      assert (P : 0 < RInt w (1/10) 1).
      { apply RInt_gt_0; [lra| |].
        - intros y _. apply exp_pos.
        - intros z _. unfold w. apply (ex_derive_continuous (K:=R_AbsRing) (V:=R_NormedModule)). auto_derive. lra. }
      field. split; lra.
Qed.

(** ** Masses and peak times *)

Lemma nabs_Rabs (x : R) : nabs x = Rabs x.
Proof.
  unfold nabs, jwhere. change (nltb x (nconst 0)) with (Rltb x 0).
  destruct (Rltb x 0) eqn:E.
  - apply Rltb_true in E. rewrite Rabs_left by exact E. cbn. ring.
  - apply Rltb_false in E. rewrite Rabs_right by lra. reflexivity.
Qed.

Lemma mae_map {X} (f g : X -> R) l : mae (map f l) (map g l) = Ok (map (fun x => Rabs (f x - g x)) l).
Proof.
  unfold mae. rewrite !map_length, Nat.eqb_refl. f_equal.
  induction l as [|x l IH]; [reflexivity|]. cbn [map combine]. f_equal; [|exact IH].
  cbn [fst snd]. rewrite nabs_Rabs. change (nsub (g x) (f x)) with (g x - f x). apply Rabs_minus_sym.
Qed.

Lemma flex_ok p : provides TPCENS_FLEX p ->
  exists f : R -> R -> R -> R, forall lgm t l, frac_peaked_vs_lgm p l lgm t = Ok (map (f lgm t) l).
Proof.
  intros Hp.
  exists (fun lgm t u => match get_utp_x0_from_lgm p lgm t with Ok x0 => FP x0 u | Err _ => 0 end).
  intros lgm t l. destruct (utp_x0_ok p lgm t Hp) as (x0 & E & _).
  unfold frac_peaked_vs_lgm. rewrite E. reflexivity.
Qed.

Lemma multimass_eval p f (rows : list (list (R * R) * R * R)) :
  (forall lgm t l, frac_peaked_vs_lgm p l lgm t = Ok (map (f lgm t) l)) ->
  loss_multimass (PTup p) (map mass_row rows) = Ok (mean_abs (mass_pairs f rows)).
Proof.
  intros F. unfold loss_multimass.
  assert (E : collect (loss_kern_single_mass (PTup p)) (map mass_row rows) =
    Ok (map (fun r => map (fun q => Rabs (f (snd (fst r)) (snd r) (fst q) - snd q)) (fst (fst r))) rows)).
  { induction rows as [|[[pts lgm] t] rows IH]; [reflexivity|]. cbn [map collect].
    unfold mass_row at 1, loss_kern_single_mass at 1. cbn [fst snd with_fields bind]. rewrite F. cbn [bind].
    rewrite map_map, mae_map. cbn [bind]. rewrite IH. reflexivity. }
  rewrite E. cbn [bind]. rewrite nmean_mean. unfold mean_abs, mass_pairs. do 2 f_equal.
  clear E. induction rows as [|[[pts lgm] t] rows IH]; [reflexivity|].
  cbn [map concat flat_map]. rewrite map_app, IH, map_map. reflexivity.
Qed.

Lemma mass_pairs_In f rows x y : In (x, y) (mass_pairs f rows) <->
  exists pts lgm t u, In (pts, lgm, t) rows /\ In (u, y) pts /\ x = f lgm t u.
Proof.
  unfold mass_pairs. rewrite in_flat_map. split.
  - intros ([[pts lgm] t] & H1 & H2). cbn in H2. apply in_map_iff in H2 as ([u z] & E & H2). cbn in E. injection E as <- <-.
    exists pts, lgm, t, u. auto.
  - intros (pts & lgm & t & u & H1 & H2 & ->). exists (pts, lgm, t). split; [exact H1|]. cbn.
    apply in_map_iff. exists (u, y). auto.
Qed.

Lemma flex_sigmoid (u x0 : R) : sigmoid u x0 TPC_K TPC_YLO TPC_YHI = 1 / (1 + exp (- (5 * (u - x0)))).
Proof. unfold sigmoid, TPC_K, TPC_YLO, TPC_YHI. cbn. unfold logistic. unfold Rdiv. ring. Qed.

Lemma flex_loss_eval x0 (pts : list (R * R)) :
  flex_loss [x0] (columns2 pts) =
    Ok (mean_sq (map (fun q => (1 / (1 + exp (- (5 * (fst q - x0)))), snd q)) pts)).
Proof.
  unfold flex_loss, columns2. rewrite extent2. cbn [bind].
  rewrite (map_points pts (0, 0) (fun q => 1 / (1 + exp (- (5 * (fst q - x0)))))).
  - rewrite column_map. apply mse_map.
  - intros i Hi. rewrite (entry_map _ pts (0, 0)) by exact Hi. apply flex_sigmoid.
Qed.

(** ** Fits *)

Section RunFit.
  Context {P G S : Type}.
  Variable gfinite : G -> bool.
  Variable cast : P -> P.
  Variable pzero : P.
  Variable adam : R -> optimizer P G S.
  Variable minimize : (P -> xr) -> (P -> G) -> P -> P * xr * bool.
  Variable grad : (P -> res R) -> P -> G.
  Notation fit := (run_fit gfinite cast pzero adam minimize grad).
  Variable loss : P -> res R.
  Hypothesis Htotal : forall p, exists v, loss p = Ok v.

  Lemma run_fit_ok p0 n nw : (0 < n)%nat -> exists u l b code, fit loss p0 n nw = Ok (u, l, b, code) /\ (code <= 1)%nat.
  Proof.
    intros Hn. unfold run_fit. destruct (Htotal (cast p0)) as (v & ->). now apply fallback_ok.
  Qed.

  Lemma run_fit_reports p0 n nw u l b code : (0 < n)%nat ->
    (forall p, cast (cast p) = cast p) -> starts_at_input adam -> reports_its_loss minimize ->
    gfinite (grad loss (cast p0)) = true ->
    fit loss p0 n nw = Ok (u, l, b, code) ->
    exists v v0, loss (cast u) = Ok v /\ loss (cast p0) = Ok v0 /\ l = Fin v /\ (code = 1%nat -> v <= v0).
  Proof.
    intros Hn Hc Ha Hm Hg. unfold run_fit. destruct (Htotal (cast p0)) as (v0 & E0). rewrite E0.
    set (lg := fun p => (match loss (cast p) with Ok v => Fin v | Err _ => NaN end, grad loss (cast p))).
    pose proof (fallback_iff (fun _ => true) gfinite cast pzero adam lg minimize p0 n nw Hn) as F.
    destruct (minimize (fun q => fst (lg q)) (fun q => snd (lg q)) p0) as [[x f] ok] eqn:EM.
    cbv zeta in F. destruct F as [F1 F2]. intros H.
    destruct (Classical_Prop.classic (ok = true /\ exists r, f = Fin r /\ 0 < r)) as [Hgood|Hbad].
    - rewrite (F1 Hgood) in H. injection H as <- <- <- <-. destruct Hgood as (-> & r & -> & _).
      pose proof (Hm _ _ _ _ _ EM) as E. unfold lg in E. cbn [fst] in E.
      destruct (Htotal (cast x)) as (v & Ev). rewrite Ev in E. exists v, v0.
      refine (conj Ev (conj eq_refl (conj E _))). discriminate.
    - destruct (F2 Hbad) as (fr & flag & W & E). rewrite E in H. injection H as <- <- <- <-.
      destruct (wrapper_improves (fun _ => true) gfinite cast pzero adam lg) with (p := p0) (n_step := n) (n_warmup := nw)
        (s := 1 / 100) (wn := 50%nat) (ws := @None R) (tol := Fin 0) (r0 := v0) as (fr' & flag' & W' & (_ & B1 & r & B2 & B3) & _).
      + exact Ha.
      + intros p. unfold lg. now rewrite Hc.
      + auto.
      + exact Hn.
      + lia.
      + right. reflexivity.
      + split; [reflexivity|]. split; [|exact Hg]. exists v0. unfold lg. cbn [fst]. now rewrite E0.
      + unfold lg. cbn [fst]. now rewrite E0.
      + rewrite W in W'. injection W' as <- <-. unfold lg in B1. cbn [fst] in B1.
        destruct (Htotal (cast (b_params fr))) as (v & Ev). rewrite Ev in B1. rewrite <- B1 in B2. injection B2 as <-.
        exists v, v0. refine (conj Ev (conj eq_refl (conj (eq_sym B1) _))). intros _. exact B3.
  Qed.
End RunFit.

Lemma utp_bounded (a b : R) : exists loc scale,
  make (c_unames UTP) [a; b] = Ok (combine (c_unames UTP) [a; b]) /\
  get_bounded_params UTP (combine (c_unames UTP) [a; b]) = Ok (utp_params loc scale) /\
  1001/10000 < loc < 9999/10000 /\ 1/10000 < scale < 1.
Proof.
  destruct (make_unames UTP [a; b] eq_refl) as [M U].
  destruct (acts_bijection UTP _ _ wfc_UTP (acts_single UTP wfc_UTP)) as [B _].
  destruct (B _ U) as (p & E & [L I] & _). unfold shaped in L. cbn in L.
  destruct p as [|[k1 loc] [|[k2 scale] [|? ?]]]; try discriminate. cbn in L. injection L as -> ->.
  exists loc, scale. refine (conj M (conj E _)).
  destruct (I "utp_loc"%string (1001/10000) (9999/10000)) as (v & Hv & R1); [now left|].
  destruct (I "utp_scale"%string (1/10000) 1) as (w & Hw & R2); [right; now left|].
  cbn in Hv, Hw. destruct Hv as [Hv|[Hv|[]]]; [|discriminate]. destruct Hw as [Hw|[Hw|[]]]; [discriminate|].
  injection Hv as <-. injection Hw as <-. auto.
Qed.

Lemma utp_loss_eval (u : R * R) (pts : list (R * R)) : exists loc scale,
  get_bounded_params UTP (combine (c_unames UTP) [fst u; snd u]) = Ok (utp_params loc scale) /\
  utp_loss_kern truncnorm_pdf_R (arr2 u) (columns2 pts) =
    Ok (mean_sq (map (fun q => (truncated_normal (1/10) 1 loc scale (fst q), snd q)) pts)).
Proof.
  destruct (utp_bounded (fst u) (snd u)) as (loc & scale & M & E & H1 & H2). exists loc, scale. split; [exact E|].
  unfold utp_loss_kern, arr2. cbn [star]. rewrite M. cbn [bind]. rewrite E. cbn [bind]. unfold columns2, unpack2.
  cbn [values utp_params map snd bind]. rewrite extent2. cbn [bind].
  rewrite (map_points pts (0, 0) (fun q => truncated_normal (1/10) 1 loc scale (fst q))).
  - rewrite column_map. apply mse_map.
  - intros i Hi. rewrite (entry_map _ pts (0, 0)) by exact Hi. apply density_truncated. lra.
Qed.

Lemma cens_loss_eval (u : R * R) (pts : list (R * R)) t0 : 0 < t0 -> exists loc scale,
  get_bounded_params UTP (combine (c_unames UTP) [fst u; snd u]) = Ok (utp_params loc scale) /\
  tp_cens_loss_kern truncnorm_pdf_R (arr2 u) (columns2 pts, t0) =
    Ok (mean_sq (map (fun q => (truncated_normal (t0/10) t0 (loc * t0) (scale * t0) (fst q), snd q)) pts)).
Proof.
  intros Ht. destruct (utp_bounded (fst u) (snd u)) as (loc & scale & M & E & H1 & H2). exists loc, scale. split; [exact E|].
  unfold tp_cens_loss_kern, arr2. cbn [star]. rewrite M. cbn [bind]. rewrite E. cbn [bind]. unfold columns2, unpack2.
  cbn [values utp_params map snd bind]. rewrite extent2. cbn [bind].
  rewrite (map_points pts (0, 0) (fun q => truncated_normal (t0/10) t0 (loc * t0) (scale * t0) (fst q))).
  - rewrite column_map. apply mse_map.
  - intros i Hi. rewrite (entry_map _ pts (0, 0)) by exact Hi. apply cens_density_truncated; lra.
Qed.

Lemma utp_default : exists u0, DEFAULT_UTP_U_PARAMS = Ok u0 /\
  get_bounded_params UTP (combine (c_unames UTP) [fst u0; snd u0]) = Ok (utp_params (1/2) (1/2)).
Proof.
  assert (L : legal_for UTP (c_pdict UTP)).
  { split; [reflexivity|]. intros k lo hi H. cbn in H. destruct H as [E|[E|[]]]; injection E as <- <- <-;
      eexists; (split; [cbn; eauto|lra]). }
  destruct (acts_bijection UTP _ _ wfc_UTP (acts_single UTP wfc_UTP)) as [_ B].
  destruct (B _ L) as (u & E1 & U & E2). unfold unbounded_for, shaped in U. cbn in U.
  destruct u as [|[k1 a] [|[k2 b] [|? ?]]]; try discriminate. cbn in U. injection U as -> ->.
  exists (a, b). split.
  - unfold DEFAULT_UTP_U_PARAMS. replace (c_default UTP) with (Ok (c_pdict UTP)) by reflexivity.
    cbn [bind]. rewrite E1. reflexivity.
  - cbn [fst snd]. change (combine (c_unames UTP) [a; b]) with [("u_utp_loc"%string, a); ("u_utp_scale"%string, b)].
    rewrite E2. f_equal. unfold utp_params. cbn. now replace (5 / 10) with (1/2) by lra.
Qed.

Section Tpeak.
  Context {G S : Type}.
  Variable gfinite : G -> bool.
  Variable round : R -> R.
  Variable adam : R -> optimizer (R * R) G S.
  Variable minimize : (R * R -> xr) -> (R * R -> G) -> R * R -> R * R * xr * bool.
  Variable grad : (R * R -> res R) -> R * R -> G.

  Lemma bounded_result_eval u l b code : exists loc scale,
    stands_for round u loc scale /\ bounded_result round (u, l, b, code) = Ok (utp_params loc scale, l, b, code) /\
    1001/10000 < loc < 9999/10000 /\ 1/10000 < scale < 1.
  Proof.
    destruct (utp_bounded (round (fst u)) (round (snd u))) as (loc & scale & M & E & H1 & H2). exists loc, scale.
    split; [exact E|]. split; [|auto]. unfold bounded_result, arr2, cast2. cbn [star fst snd]. rewrite M. cbn [bind].
    rewrite E. reflexivity.
  Qed.

  Lemma tpeak_total pts : exists loc scale l b code,
    t_peak_fitter truncnorm_pdf_R gfinite round adam minimize grad (fst (columns2 pts)) (snd (columns2 pts))
      = Ok (utp_params loc scale, l, b, code) /\
    1001/10000 < loc < 9999/10000 /\ 1/10000 < scale < 1 /\ (code <= 1)%nat.
  Proof.
    destruct utp_default as (u0 & E0 & _). unfold t_peak_fitter. rewrite E0. cbn [bind].
    destruct (run_fit_ok gfinite (cast2 round) (0, 0) adam minimize grad
      (fun u => utp_loss_kern truncnorm_pdf_R (arr2 u) (fst (columns2 pts), snd (columns2 pts)))) with (p0 := u0) (n := 200%nat) (nw := 1%nat)
      as (u & l & b & code & E & Hc); [|lia|].
    { intros p. destruct (utp_loss_eval p pts) as (loc & scale & _ & H). eexists. exact H. }
    rewrite E. cbn [bind]. destruct (bounded_result_eval u l b code) as (loc & scale & _ & B & H1 & H2).
    exists loc, scale, l, b, code. auto.
  Qed.

  Lemma tpeak_cens_total pts t0 u0 n nw : 0 < t0 -> (0 < n)%nat -> exists loc scale l b code,
    t_peak_cens_fitter truncnorm_pdf_R gfinite round adam minimize grad (fst (columns2 pts)) (snd (columns2 pts)) t0 u0 n nw
      = Ok (utp_params loc scale, l, b, code) /\
    1001/10000 < loc < 9999/10000 /\ 1/10000 < scale < 1 /\ (code <= 1)%nat.
  Proof.
    intros Ht Hn. unfold t_peak_cens_fitter.
    assert (E0 : exists u1, match u0 with None => DEFAULT_UTP_U_PARAMS | Some u => Ok u end = Ok u1).
    { destruct u0 as [u|]; [eauto|]. destruct utp_default as (u1 & E & _). eauto. }
    destruct E0 as (u1 & ->). cbn [bind].
    destruct (run_fit_ok gfinite (cast2 round) (0, 0) adam minimize grad
      (fun u => tp_cens_loss_kern truncnorm_pdf_R (arr2 u) (fst (columns2 pts), snd (columns2 pts), t0))) with (p0 := u1) (n := n) (nw := nw)
      as (u & l & b & code & E & Hc); [|exact Hn|].
    { intros p. destruct (cens_loss_eval p pts t0 Ht) as (loc & scale & _ & H). eexists. exact H. }
    rewrite E. cbn [bind]. destruct (bounded_result_eval u l b code) as (loc & scale & _ & B & H1 & H2).
    exists loc, scale, l, b, code. auto.
  Qed.

  Hypothesis Hround : forall x, round (round x) = round x.
  Hypothesis Hadam : starts_at_input adam.
  Hypothesis Hmin : reports_its_loss minimize.

  Lemma tpeak_reports pts loc scale l b code u0 :
    DEFAULT_UTP_U_PARAMS = Ok u0 ->
    gfinite (grad (fun u => utp_loss_kern truncnorm_pdf_R (arr2 u) (columns2 pts)) (cast2 round u0)) = true ->
    t_peak_fitter truncnorm_pdf_R gfinite round adam minimize grad (fst (columns2 pts)) (snd (columns2 pts))
      = Ok (utp_params loc scale, l, b, code) ->
    l = Fin (mean_sq (map (fun q => (truncated_normal (1/10) 1 loc scale (fst q), snd q)) pts)) /\
    (code = 1%nat -> exists loc0 scale0, stands_for round u0 loc0 scale0 /\
       mean_sq (map (fun q => (truncated_normal (1/10) 1 loc scale (fst q), snd q)) pts) <=
       mean_sq (map (fun q => (truncated_normal (1/10) 1 loc0 scale0 (fst q), snd q)) pts)).
  Proof.
    intros E0 Hg. unfold t_peak_fitter. rewrite E0. cbn [bind].
    set (loss := fun u => utp_loss_kern truncnorm_pdf_R (arr2 u) (fst (columns2 pts), snd (columns2 pts))).
    assert (T : forall p, exists v, loss p = Ok v).
    { intros p. destruct (utp_loss_eval p pts) as (? & ? & _ & H). eexists. exact H. }
    destruct (run_fit_ok gfinite (cast2 round) (0, 0) adam minimize grad loss T u0 200 1 ltac:(lia)) as (u & l' & b' & code' & E & _).
    rewrite E. cbn [bind]. destruct (bounded_result_eval u l' b' code') as (loc' & scale' & B0 & B & _). rewrite B.
    intros H. injection H as <- <- <- <- <-.
    destruct (run_fit_reports gfinite (cast2 round) (0, 0) adam minimize grad loss T u0 200 1 u l' b' code')
      as (v & v0 & V & V0 & -> & Hle); auto; try lia.
    { intros [x y]. unfold cast2. cbn. now rewrite !Hround. }
    destruct (utp_loss_eval (cast2 round u) pts) as (loc1 & scale1 & C1 & L1).
    pose proof (eq_trans (eq_sym B0) C1) as X. injection X as <- <-.
    assert (v = mean_sq (map (fun q => (truncated_normal (1/10) 1 loc' scale' (fst q), snd q)) pts)) as ->.
    { apply Ok_inj. rewrite <- V. exact L1. }
    split; [reflexivity|]. intros Hc.
    destruct (utp_loss_eval (cast2 round u0) pts) as (loc0 & scale0 & C0 & L0).
    exists loc0, scale0. split; [exact C0|].
    assert (v0 = mean_sq (map (fun q => (truncated_normal (1/10) 1 loc0 scale0 (fst q), snd q)) pts)) as <-
      by (apply Ok_inj; rewrite <- V0; exact L0).
    auto.
  Qed.

  Lemma tpeak_cens_reports pts t0 u0 n nw loc scale l b code : 0 < t0 -> (0 < n)%nat ->
    gfinite (grad (fun u => tp_cens_loss_kern truncnorm_pdf_R (arr2 u) (columns2 pts, t0)) (cast2 round u0)) = true ->
    t_peak_cens_fitter truncnorm_pdf_R gfinite round adam minimize grad (fst (columns2 pts)) (snd (columns2 pts)) t0 (Some u0) n nw
      = Ok (utp_params loc scale, l, b, code) ->
    l = Fin (mean_sq (map (fun q => (truncated_normal (t0/10) t0 (loc * t0) (scale * t0) (fst q), snd q)) pts)) /\
    (code = 1%nat -> exists loc0 scale0, stands_for round u0 loc0 scale0 /\
       mean_sq (map (fun q => (truncated_normal (t0/10) t0 (loc * t0) (scale * t0) (fst q), snd q)) pts) <=
       mean_sq (map (fun q => (truncated_normal (t0/10) t0 (loc0 * t0) (scale0 * t0) (fst q), snd q)) pts)).
  Proof.
    intros Ht Hn Hg. unfold t_peak_cens_fitter. cbn [bind].
    set (loss := fun u => tp_cens_loss_kern truncnorm_pdf_R (arr2 u) (fst (columns2 pts), snd (columns2 pts), t0)).
    assert (T : forall p, exists v, loss p = Ok v).
    { intros p. destruct (cens_loss_eval p pts t0 Ht) as (? & ? & _ & H). eexists. exact H. }
    destruct (run_fit_ok gfinite (cast2 round) (0, 0) adam minimize grad loss T u0 n nw Hn) as (u & l' & b' & code' & E & _).
    rewrite E. cbn [bind]. destruct (bounded_result_eval u l' b' code') as (loc' & scale' & B0 & B & _). rewrite B.
    intros H. injection H as <- <- <- <- <-.
    destruct (run_fit_reports gfinite (cast2 round) (0, 0) adam minimize grad loss T u0 n nw u l' b' code')
      as (v & v0 & V & V0 & -> & Hle); auto.
    { intros [x y]. unfold cast2. cbn. now rewrite !Hround. }
    destruct (cens_loss_eval (cast2 round u) pts t0 Ht) as (loc1 & scale1 & C1 & L1).
    pose proof (eq_trans (eq_sym B0) C1) as X. injection X as <- <-.
    assert (v = mean_sq (map (fun q => (truncated_normal (t0/10) t0 (loc' * t0) (scale' * t0) (fst q), snd q)) pts)) as ->.
    { apply Ok_inj. rewrite <- V. exact L1. }
    split; [reflexivity|]. intros Hc.
    destruct (cens_loss_eval (cast2 round u0) pts t0 Ht) as (loc0 & scale0 & C0 & L0).
    exists loc0, scale0. split; [exact C0|].
    assert (v0 = mean_sq (map (fun q => (truncated_normal (t0/10) t0 (loc0 * t0) (scale0 * t0) (fst q), snd q)) pts)) as <-
      by (apply Ok_inj; rewrite <- V0; exact L0).
    auto.
  Qed.
End Tpeak.
