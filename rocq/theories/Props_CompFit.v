(** C74: the losses and fitters of single population components. *)

From Coq Require Import Reals String List Bool Arith Lia Lra.
From Coquelicot Require Import Coquelicot.
From Verif Require Import Model_Num RealAux Model_Base Model_Kernels Model_Utils Model_PopBase Model_PopData
  Model_PopParams Model_PopKernels Model_PopMC Model_Adam Model_CompFit Spec_Pop Spec_TruncNorm Spec_Fitter Spec_CompFit
  Proofs_PopBase Proofs_PopParams Proofs_PopAll Proofs_PopKernels Proofs_PopProps Proofs_CompFit.
Import ListNotations.
Local Open Scope R_scope.
Local Open Scope list_scope.

(** The loss of an index or critical-time component, as an optimiser calls it
    (with an array of unbounded numbers), is the mean squared difference between
    the targets and the predictions of the legal parameters these numbers stand
    for.  It vanishes exactly when every target is predicted. *)
Theorem C74_component_loss : forall c pred us (pts : list (R * R * R * R)),
  In (c, pred) uparam_kernels -> List.length us = List.length (c_pdict c) -> pts <> [] ->
  exists p f v, legal_for c p /\
    get_unbounded_params c p = Ok (combine (map (fun k => ("u_" ++ k)%string) (map fst (c_pdict c))) us) /\
    (forall lgm t tp, pred p lgm t tp = Ok (f lgm t tp)) /\
    uparam_loss_kern c pred (PArr us) (columns4 pts) = Ok v /\
    v = mean_sq (map (fun x => let '(lgm, t, tp, y) := x in (f lgm t tp, y)) pts) /\
    0 <= v /\ (v = 0 <-> forall lgm t tp y, In (lgm, t, tp, y) pts -> f lgm t tp = y).
Proof.
  intros c pred us pts H HL Hp. destruct (uparam_loss_eval c pred us pts H HL) as (p & f & L & U & F & E).
  set (v := mean_sq (map (fun x => let '(lgm, t, tp, y) := x in (f lgm t tp, y)) pts)).
  assert (Ev : v = mean_sq (map (fun x => (f (fst (fst (fst x))) (snd (fst (fst x))) (snd (fst x)), snd x)) pts)).
  { unfold v. f_equal. apply map_ext. intros [[[a t] s] y]. reflexivity. }
  exists p, f, v. rewrite <- Ev in E. refine (conj L (conj U (conj F (conj E (conj eq_refl _))))).
  destruct (mean_sq_facts (map (fun x => let '(lgm, t, tp, y) := x in (f lgm t tp, y)) pts)) as [A B].
  { destruct pts; [congruence|discriminate]. }
  split; [exact A|]. unfold v. rewrite B. split.
  - intros Q lgm t tp y Hi. apply Q. apply in_map_iff. exists (lgm, t, tp, y). auto.
  - intros Q x y Hi. apply in_map_iff in Hi as ([[[a t] s] z] & Ez & Hi). injection Ez as <- <-. now apply Q.
Qed.
Print Assumptions C74_component_loss.

(** Targets generated by legal parameters are fitted perfectly by the unbounded
    numbers of these parameters. *)
Theorem C74_true_parameters_fit : forall c pred p u (pts : list (R * R * R * R)),
  In (c, pred) uparam_kernels -> legal_for c p -> get_unbounded_params c p = Ok u -> pts <> [] ->
  (forall lgm t tp y, In (lgm, t, tp, y) pts -> pred p lgm t tp = Ok y) ->
  uparam_loss_kern c pred (PArr (map snd u)) (columns4 pts) = Ok 0.
Proof.
  intros c pred p u pts H L U Hp Q.
  destruct (uparam_kernels_ok c pred H) as [W K].
  destruct (acts_bijection c _ _ W (acts_single c W)) as [B1 B2].
  destruct (B2 p L) as (u' & E1 & Un & E2). rewrite E1 in U. injection U as <-.
  assert (HL : List.length (map snd u') = List.length (c_pdict c)).
  { rewrite map_length. unfold unbounded_for, shaped in Un. apply (f_equal (@List.length string)) in Un. rewrite !map_length in Un. exact Un. }
  destruct (C74_component_loss c pred (map snd u') pts H HL Hp) as (q & f & v & Lq & Uq & F & E & _ & _ & Z).
  assert (EQ : Ok (combine (c_unames c) (map snd u')) = Ok u').
  { apply (f_equal Ok). symmetry. apply (shaped_combine (c_unames c) u'). exact Un. }
  change (map (fun k => ("u_" ++ k)%string) (map fst (c_pdict c))) with (c_unames c) in Uq. rewrite EQ in Uq.
  assert (q = p). { destruct (B2 q Lq) as (u2 & E3 & _ & E4). rewrite Uq in E3. injection E3 as <-. rewrite E2 in E4. now injection E4. }
  subst q. rewrite E. f_equal. apply Z. intros lgm t tp y Hi. specialize (Q lgm t tp y Hi). rewrite F in Q. now injection Q.
Qed.
Print Assumptions C74_true_parameters_fit.

(** A number in place of a data column counts for every point. *)
Theorem C74_number_is_constant_column : forall c (pred : rec R -> R -> R -> R -> res R) us lgm t (tp y : list R),
  uparam_loss_kern c pred us (Num1 lgm, Num1 t, Arr tp, Arr y) =
  uparam_loss_kern c pred us (Arr (repeat lgm (List.length tp)), Arr (repeat t (List.length tp)), Arr tp, Arr y).
Proof.
  intros c pred us lgm t tp y. unfold uparam_loss_kern.
  destruct (make (c_unames c) (star us)) as [u|]; [|reflexivity]. cbn [bind].
  destruct (get_bounded_params c u) as [p|]; [|reflexivity]. cbn [bind].
  unfold extent, lengths. cbn [flat_map app forallb]. rewrite !repeat_length, !Nat.eqb_refl. cbn [andb].
  destruct (Nat.eqb (List.length tp) (List.length y) && true)%bool; [|reflexivity]. cbn [bind].
  rewrite (collect_ext _ (fun i => pred p (entry (Arr (repeat lgm (List.length tp))) i)
    (entry (Arr (repeat t (List.length tp))) i) (entry (Arr tp) i))); [reflexivity|].
  intros i Hi. apply in_seq in Hi. now rewrite !column_repeat by lia.
Qed.
Print Assumptions C74_number_is_constant_column.

(** The global loss of a z=0 mass component, called with a parameter tuple, adds
    the mean squared differences of the data sets. *)
Theorem C74_global_loss : forall c pred p (sets : list (list (R * R * R))),
  In (c, pred) global_kernels -> provides c p -> (forall pts, In pts sets -> pts <> []) ->
  exists f v, (forall t tp, pred p t tp = Ok (f t tp)) /\
    global_loss_kern pred (PTup p) (map columns3 sets) = Ok v /\
    v = fold_right Rplus 0
          (map (fun pts => mean_sq (map (fun x => let '(t, tp, y) := x in (f t tp, y)) pts)) sets) /\
    0 <= v /\ (v = 0 <-> forall pts t tp y, In pts sets -> In (t, tp, y) pts -> f t tp = y).
Proof.
  intros c pred p sets H Hp Hs. destruct (global_kernels_ok c pred p H Hp) as (f & F).
  exists f. eexists. split; [exact F|]. split; [exact (global_loss_eval pred p f sets F)|]. split.
  { f_equal. apply map_ext. intros pts. unfold set_loss. f_equal. apply map_ext. intros [[t s] y]. reflexivity. }
  destruct (sum_zero (map (set_loss f) sets)) as [A B].
  { intros x Hx. apply in_map_iff in Hx as (pts & <- & Hi). apply set_loss_facts. now apply Hs. }
  split; [exact A|]. rewrite B. split.
  - intros Q pts t tp y H1 H2. apply (proj1 (proj2 (set_loss_facts f pts (Hs pts H1)))); [|exact H2].
    apply Q. apply in_map. exact H1.
  - intros Q x Hx. apply in_map_iff in Hx as (pts & <- & Hi). apply set_loss_facts; [now apply Hs|].
    intros t s y Hy. exact (Q pts t s y Hi Hy).
Qed.
Print Assumptions C74_global_loss.

(** fit_global_c0_model and fit_global_c1_model of all eight files end with an
    AttributeError for every non-empty list of data sets and every starting
    point: the optimiser hands the loss an array, and the loss reads fields.
    ([gfinite] ... [grad] stand for any optimiser.) *)
Theorem C74_global_fit_raises :
  forall G S (gfinite : G -> bool) cast pzero (adam : R -> optimizer (list R) G S) minimize grad c pred data p_init,
  In (c, pred) global_kernels -> data <> [] ->
  fit_global_model gfinite cast pzero adam minimize grad pred data p_init = Err AttributeError.
Proof.
  intros G S gfinite cast pzero adam minimize grad c pred data p_init _ Hd. unfold fit_global_model, run_fit.
  now rewrite global_loss_array.
Qed.
Print Assumptions C74_global_fit_raises.

(** So "the fitter returns, for data that some legal parameters reproduce" is
    false: here the starting point itself reproduces the data. *)
Theorem C74_global_fit_returns_refuted : exists c pred p data,
  In (c, pred) global_kernels /\ legal_for c p /\ global_loss_kern pred (PTup p) data = Ok 0 /\
  forall G S (gfinite : G -> bool) cast pzero (adam : R -> optimizer (list R) G S) minimize grad,
  fit_global_model gfinite cast pzero adam minimize grad pred data (PTup p) = Err AttributeError.
Proof.
  exists LGM0_C0_EARLY, (pred_c0_kern "_early"), (c_pdict LGM0_C0_EARLY).
  assert (L : legal_for LGM0_C0_EARLY (c_pdict LGM0_C0_EARLY)).
  { split; [reflexivity|]. intros k lo hi H. cbn in H.
    destruct H as [E|[E|[E|[E|[E|[]]]]]]; injection E as <- <- <-; eexists; (split; [cbn; eauto 7|lra]). }
  assert (I : In (LGM0_C0_EARLY, pred_c0_kern "_early") global_kernels) by now left.
  destruct (global_kernels_ok _ _ _ I (legal_provides _ _ (proj1 wfc_LGM0_C0_EARLY) L)) as (f & F).
  exists (map columns3 [[(10, 5, f 10 5)]]).
  refine (conj I (conj L (conj _ _))).
  - destruct (C74_global_loss _ _ _ [[(10, 5, f 10 5)]] I (legal_provides _ _ (proj1 wfc_LGM0_C0_EARLY) L))
      as (g & v & Fg & E & _ & _ & Z).
    { intros pts [<-|[]]. discriminate. }
    rewrite E. f_equal. apply Z. intros pts t tp y [<-|[]] [Ey|[]]. injection Ey as <- <- <-.
    specialize (Fg 10 5). rewrite F in Fg. now injection Fg.
  - intros. apply (C74_global_fit_raises _ _ _ _ _ _ _ _ _ _ _ _ I). discriminate.
Qed.
Print Assumptions C74_global_fit_returns_refuted.

(** The loss of the central peak-time fractions is the mean absolute difference
    between measured and modelled fractions over all masses and peak times, and
    vanishes exactly when every measured fraction is modelled. *)
Theorem C74_multimass_loss : forall p (rows : list (list (R * R) * R * R)),
  provides TPCENS_FLEX p -> (exists pts lgm t, In (pts, lgm, t) rows /\ pts <> []) ->
  exists f v, (forall lgm t l, frac_peaked_vs_lgm p l lgm t = Ok (map (f lgm t) l)) /\
    loss_multimass (PTup p) (map mass_row rows) = Ok v /\
    v = mean_abs (mass_pairs f rows) /\ 0 <= v /\
    (v = 0 <-> forall pts lgm t u y, In (pts, lgm, t) rows -> In (u, y) pts -> f lgm t u = y).
Proof.
  intros p rows Hp (pts0 & lgm0 & t0 & Hin & Hne). destruct (flex_ok p Hp) as (f & F).
  exists f, (mean_abs (mass_pairs f rows)).
  split; [exact F|]. split; [exact (multimass_eval p f rows F)|]. split; [reflexivity|].
  destruct (mean_abs_facts (mass_pairs f rows)) as [A B].
  { destruct pts0 as [|[u y] r]; [congruence|]. intros E.
    assert (X : In (f lgm0 t0 u, y) (mass_pairs f rows)).
    { apply mass_pairs_In. exists ((u, y) :: r), lgm0, t0, u. split; [exact Hin|]. split; [now left|reflexivity]. }
    rewrite E in X. destruct X. }
  split; [exact A|]. rewrite B. split.
  - intros Q pts lgm t u y H1 H2. apply Q. apply mass_pairs_In. exists pts, lgm, t, u. auto.
  - intros Q x y H. apply mass_pairs_In in H as (pts & lgm & t & u & H1 & H2 & ->). eauto.
Qed.
Print Assumptions C74_multimass_loss.

(** The loss of one sigmoid cumulative distribution. *)
Theorem C74_single_sigmoid_loss : forall x0 (pts : list (R * R)), pts <> [] ->
  let f u := 1 / (1 + exp (- (5 * (u - x0)))) in
  exists v, flex_loss [x0] (columns2 pts) = Ok v /\ v = mean_sq (map (fun q => (f (fst q), snd q)) pts) /\
    0 <= v /\ (v = 0 <-> forall u y, In (u, y) pts -> f u = y).
Proof.
  intros x0 pts Hp f. exists (mean_sq (map (fun q => (f (fst q), snd q)) pts)).
  split; [apply flex_loss_eval|]. split; [reflexivity|].
  destruct (mean_sq_facts (map (fun q => (f (fst q), snd q)) pts)) as [A B]. { destruct pts; [congruence|discriminate]. }
  split; [exact A|]. rewrite B. split.
  - intros Q u y Hi. apply Q. apply in_map_iff. exists (u, y). auto.
  - intros Q x y Hi. apply in_map_iff in Hi as ([u z] & E & Hi). cbn in E. injection E as <- <-. now apply Q.
Qed.
Print Assumptions C74_single_sigmoid_loss.

(** The peak-time fitters always return, whatever the optimisers do, and the
    returned parameters are strictly inside the published bounds. *)
Theorem C74_tpeak_fit_legal :
  forall G S (gfinite : G -> bool) round (adam : R -> optimizer (R * R) G S) minimize grad (pts : list (R * R)),
  exists loc scale loss ok code,
    t_peak_fitter truncnorm_pdf_R gfinite round adam minimize grad (Arr (map fst pts)) (Arr (map snd pts))
      = Ok (utp_params loc scale, loss, ok, code) /\
    1001/10000 < loc < 9999/10000 /\ 1/10000 < scale < 1 /\ (code <= 1)%nat.
Proof. intros. apply tpeak_total. Qed.
Print Assumptions C74_tpeak_fit_legal.

Theorem C74_tpeak_cens_fit_legal :
  forall G S (gfinite : G -> bool) round (adam : R -> optimizer (R * R) G S) minimize grad (pts : list (R * R))
    t_0 u_init nstep n_warmup, 0 < t_0 -> (0 < nstep)%nat ->
  exists loc scale loss ok code,
    t_peak_cens_fitter truncnorm_pdf_R gfinite round adam minimize grad (Arr (map fst pts)) (Arr (map snd pts))
      t_0 u_init nstep n_warmup = Ok (utp_params loc scale, loss, ok, code) /\
    1001/10000 < loc < 9999/10000 /\ 1/10000 < scale < 1 /\ (code <= 1)%nat.
Proof. intros. now apply tpeak_cens_total. Qed.
Print Assumptions C74_tpeak_cens_fit_legal.

(** The reported loss is the mean squared difference between the targets and the
    truncated normal density of the returned parameters; after a fall-back to
    Adam it is not larger than at the starting point. *)
Theorem C74_tpeak_reported_loss :
  forall G S (gfinite : G -> bool) round (adam : R -> optimizer (R * R) G S) minimize grad (pts : list (R * R))
    u0 loc scale loss ok code,
  (forall x, round (round x) = round x) -> starts_at_input adam -> reports_its_loss minimize ->
  DEFAULT_UTP_U_PARAMS = Ok u0 ->
  gfinite (grad (fun u => utp_loss_kern truncnorm_pdf_R (arr2 u) (columns2 pts)) (cast2 round u0)) = true ->
  t_peak_fitter truncnorm_pdf_R gfinite round adam minimize grad (Arr (map fst pts)) (Arr (map snd pts))
    = Ok (utp_params loc scale, loss, ok, code) ->
  let dist loc scale := mean_sq (map (fun q => (truncated_normal (1/10) 1 loc scale (fst q), snd q)) pts) in
  loss = Fin (dist loc scale) /\
  (code = 1%nat -> exists loc0 scale0, stands_for round u0 loc0 scale0 /\ dist loc scale <= dist loc0 scale0).
Proof.
  intros G S gfinite round adam minimize grad pts u0 loc scale loss ok code H1 H2 H3 H4 H5 H6 dist.
  exact (tpeak_reports gfinite round adam minimize grad H1 H2 H3 pts loc scale loss ok code u0 H4 H5 H6).
Qed.
Print Assumptions C74_tpeak_reported_loss.

Theorem C74_tpeak_cens_reported_loss :
  forall G S (gfinite : G -> bool) round (adam : R -> optimizer (R * R) G S) minimize grad (pts : list (R * R))
    t_0 u0 nstep n_warmup loc scale loss ok code,
  (forall x, round (round x) = round x) -> starts_at_input adam -> reports_its_loss minimize ->
  0 < t_0 -> (0 < nstep)%nat ->
  gfinite (grad (fun u => tp_cens_loss_kern truncnorm_pdf_R (arr2 u) (columns2 pts, t_0)) (cast2 round u0)) = true ->
  t_peak_cens_fitter truncnorm_pdf_R gfinite round adam minimize grad (Arr (map fst pts)) (Arr (map snd pts))
    t_0 (Some u0) nstep n_warmup = Ok (utp_params loc scale, loss, ok, code) ->
  let dist loc scale :=
    mean_sq (map (fun q => (truncated_normal (t_0/10) t_0 (loc * t_0) (scale * t_0) (fst q), snd q)) pts) in
  loss = Fin (dist loc scale) /\
  (code = 1%nat -> exists loc0 scale0, stands_for round u0 loc0 scale0 /\ dist loc scale <= dist loc0 scale0).
Proof.
  intros G S gfinite round adam minimize grad pts t0 u0 n nw loc scale loss ok code H1 H2 H3 H4 H5 H6 H7 dist.
  exact (tpeak_cens_reports gfinite round adam minimize grad H1 H2 H3 pts t0 u0 n nw loc scale loss ok code H4 H5 H6 H7).
Qed.
Print Assumptions C74_tpeak_cens_reported_loss.

(** The default starting point of t_peak_fitter stands for loc = scale = 1/2. *)
Theorem C74_tpeak_default_start : exists u0, DEFAULT_UTP_U_PARAMS = Ok u0 /\ stands_for (fun x => x) u0 (1/2) (1/2).
Proof. exact utp_default. Qed.
Print Assumptions C74_tpeak_default_start.

(** The hypotheses hold, e.g. without rounding, for gradient descent with a
    constant step and a minimiser that evaluates one point. *)
Definition descent2 (s : R) : optimizer (R * R) (R * R) (R * R) :=
  mkOpt (fun p => p) (fun _ g st => (fst st - s * fst g, snd st - s * snd g)) (fun st => st).

Example C74_example_optimisers : starts_at_input descent2 /\
  reports_its_loss (fun (L : R * R -> xr) (g : R * R -> R * R) p => (p, L p, true)).
Proof. split; [intros s p; reflexivity|]. intros L g p x f E. injection E as <- <-. reflexivity. Qed.

Example C74_example_components : In (LOGTC_EARLY, pred_logtc_kern "_early") uparam_kernels /\
  legal_for LOGTC_EARLY (c_pdict LOGTC_EARLY) /\
  provides TPCENS_FLEX (c_pdict TPCENS_FLEX).
Proof.
  split; [cbn; auto 7|]. split.
  - split; [reflexivity|]. intros k lo hi H. cbn in H.
    repeat (destruct H as [E|H]; [injection E as <- <- <-; eexists; split; [cbn; eauto 9|lra]|]). destruct H.
  - split.
    + apply (proj1 wfc_TPCENS_FLEX).
    + intros k lo hi H. cbn in H.
      repeat (destruct H as [E|H]; [injection E as <- <- <-; eexists; split; [cbn; eauto 9|lra]|]). destruct H.
Qed.
