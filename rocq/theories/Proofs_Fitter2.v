(** diffmah_fitter as a whole. *)

From Coq Require Import Reals Lra Lia List Arith Bool ZArith.
From Verif Require Import Model_Num RealAux Model_Base Model_Kernels Model_Utils Model_Adam
  Model_Fitter Spec_Kernels Spec_Fitter Proofs_Kernels Proofs_XKernels Proofs_Adam Proofs_Fitter
  Proofs_Loss.
Import ListNotations.
Local Open Scope R_scope.

Lemma npts_any (l : list xr) : count_below_last xlt l (compute_non_trivial_npts l).
Proof.
  destruct l as [|x l]; [left; auto|]. right.
  destruct (last_exists (x :: l) ltac:(discriminate)) as (top & HT). exists top. split; [exact HT|].
  exists (filter (fun z => xltb z top) (x :: l)). split.
  - apply filter_subsequence. reflexivity.
  - unfold compute_non_trivial_npts. rewrite (proj2 (getlast_spec _ _) HT). cbv zeta.
    generalize (x :: l). intros l'. induction l' as [|y l' IH]; [reflexivity|].
    cbn [map filter]. destruct (xltb y top); cbn [length]; auto.
Qed.

Lemma count_below_fun {A} (lt : A -> A -> Prop) r n n' :
  count_below_last lt r n -> count_below_last lt r n' -> n = n'.
Proof.
  intros [[-> ->]|(top & HT & s & HS & ->)] [[E ->]|(top' & HT' & s' & HS' & ->)]; auto.
  - destruct HT' as [l H]. destruct l; discriminate.
  - subst. destruct HT as [l H]. destruct l; discriminate.
  - rewrite <- (last_fun _ _ _ HT HT') in HS'. now rewrite (subsequence_unique _ _ _ _ HS HS').
Qed.

(** The skip flag of get_loss_data, for any input. *)
Lemma get_loss_data_skip f4 t m g cut tmin nmin tpf u ld skip :
  get_loss_data f4 t m g cut tmin nmin tpf = Ok (u, ld, skip) ->
  (skip = true <-> (compute_non_trivial_npts (log_mah_target ld) < nmin)%nat).
Proof.
  unfold get_loss_data. destruct (check_for_logmah_vs_mah_mistake m); cbn [bind]; [|discriminate].
  destruct (get_target_data t (get_clipped_log_mah m g) g cut tmin) as [[lt lm]|]; cbn [bind]; [|discriminate].
  cbv zeta. destruct (Nat.ltb (compute_non_trivial_npts lm) nmin) eqn:E.
  - intros [= <- <- <-]. cbn [log_mah_target]. apply Nat.ltb_lt in E. tauto.
  - apply Nat.ltb_ge in E.
    destruct (getlast t); cbn [bind]; [|discriminate].
    match goal with |- bind ?x _ = _ -> _ => destruct x; cbn [bind]; [|discriminate] end.
    destruct (getlast (get_clipped_log_mah m g)); cbn [bind]; [|discriminate].
    intros [= <- <- <-]. cbn [log_mah_target]. split; [discriminate|lia].
Qed.

Lemma getlast_ok {A} (l : list A) : l <> [] -> exists a, getlast l = Ok a.
Proof. intros H. destruct (last_exists l H) as (a & Ha). exists a. now apply getlast_spec. Qed.

Lemma argmax_bool_lt l : l <> [] -> (argmax_bool l < length l)%nat.
Proof.
  intros H. unfold argmax_bool. destruct (first_true l) as [i|] eqn:E.
  - apply first_true_spec in E. destruct E as [E _]. apply nth_error_Some. congruence.
  - destruct l; [contradiction|cbn; lia].
Qed.

Lemma get_loss_data_ok f4 t m g cut tmin nmin tpf : length t = length m -> m <> [] ->
  exists r, get_loss_data f4 t m g cut tmin nmin tpf = Ok r.
Proof.
  intros HL Hm. unfold get_loss_data. destruct (check_ok m Hm) as (w & ->). cbn [bind].
  set (lm := get_clipped_log_mah m g).
  assert (HLm : length lm = length m) by (unfold lm, get_clipped_log_mah, get_clipped_log_mah_in; now rewrite map_length).
  assert (Hlm : lm <> []) by (destruct lm; [destruct m; [contradiction|discriminate]|discriminate]).
  assert (Ht : t <> []) by (destruct t; [destruct m; [contradiction|discriminate]|discriminate]).
  destruct (getlast_ok lm Hlm) as (l0 & E0). destruct (getlast_ok t Ht) as (tl & Et).
  unfold get_target_data, get_target_data_in. rewrite E0. cbn [bind]. cbv zeta.
  match goal with |- context [if ?b then _ else _] => destruct b end; [eexists; reflexivity|].
  rewrite Et. cbn [bind]. destruct tpf as [x|]; cbn [bind]; [eexists; reflexivity|].
  unfold compute_indx_t_peak_singlehalo. cbv zeta.
  destruct (getlast_ok (map f4 lm)) as (z & Ez). { destruct lm; [contradiction|discriminate]. }
  rewrite Ez. cbn [bind]. unfold getitem.
  set (bs := map (fun x => xeqb x z) (map f4 lm)).
  assert (HB : (argmax_bool bs < length t)%nat).
  { rewrite HL, <- HLm. replace (length lm) with (length bs) by (unfold bs; now rewrite !map_length).
    apply argmax_bool_lt. unfold bs. destruct lm; [contradiction|discriminate]. }
  destruct (nth_error t (argmax_bool bs)) as [x|] eqn:E; [|apply nth_error_None in E; lia].
  cbn [bind]. eexists. reflexivity.
Qed.

(** With at least one step the Adam wrapper never raises, whatever the optimiser does. *)
Lemma adam_ok {P G S} pf gf pc (pz : P) (adam : R -> optimizer P G S) lg p n s tol :
  (0 < n)%nat -> exists fr, jax_adam_wrapper_ pf gf pc pz adam lg p n s tol = Ok fr.
Proof.
  intros Hn. destruct (adam_outcome pf gf pc pz adam lg tol p s n) as (O1 & O2 & O3).
  destruct (adam_cases pf gf pc pz adam lg tol p s n) as [(k & Hk & H)|[(k & Hk & H)|H]].
  - destruct (O1 k Hk H) as [(_ & E)|(_ & b & _ & E)]; eauto.
  - eauto.
  - destruct (O3 H) as [(E & _)|(_ & b & _ & E)]; [lia|eauto].
Qed.

Lemma warmup_ok {P G S} pf gf pc (pz : P) (adam : R -> optimizer P G S) lg n :
  forall wn ws tol p l fr, (0 < wn)%nat ->
  exists p' l' fr', warmup pf gf pc pz adam lg n wn ws tol p l fr = Ok (p', l', fr') /\
    (fr' = None -> n = 0%nat /\ l' = l).
Proof.
  induction n as [|n IH]; intros wn ws tol p l fr Hw; cbn [warmup].
  - eexists _, _, _. split; [reflexivity|]. auto.
  - destruct (adam_ok pf gf pc pz adam lg p wn ws tol Hw) as (f & ->). cbn [bind].
    destruct (IH wn ws tol (b_params f) (b_loss f) (Some f) Hw) as (p' & l' & fr' & E & HN).
    exists p', l', fr'. split; [exact E|]. intros HX. exfalso.
    destruct (HN HX) as (-> & _). cbn [warmup] in E. congruence.
Qed.

Lemma wrapper_ok {P G S} pf gf pc (pz : P) (adam : R -> optimizer P G S) lg p n nw s wn ws tol :
  (0 < n)%nat -> (0 < wn)%nat -> xltb tol PInf = true \/ (0 < nw)%nat ->
  exists r, jax_adam_wrapper pf gf pc pz adam lg p n nw s wn ws tol = Ok r.
Proof.
  intros Hn Hw Ht. unfold jax_adam_wrapper. cbv zeta.
  destruct (warmup_ok pf gf pc pz adam lg nw wn
              (match ws with None => 5 * s | Some x => x end) tol p PInf None Hw)
    as (p' & l' & fr' & -> & HN). cbn [bind].
  destruct (xltb tol l') eqn:E.
  - destruct (adam_ok pf gf pc pz adam lg (if pf p' then p' else p) n s tol Hn) as (f & ->).
    cbn [bind]. eexists. reflexivity.
  - cbn [bind]. destruct fr' as [f|]; [eexists; reflexivity|].
    exfalso. destruct (HN eq_refl) as (-> & ->). destruct Ht; [congruence|lia].
Qed.

Lemma fallback_ok {P G S} pf gf pc (pz : P) (adam : R -> optimizer P G S) lg mini p n nw :
  (0 < n)%nat -> exists x l b code,
    bfgs_adam_fallback pf gf pc pz adam lg mini p n nw = Ok (x, l, b, code) /\ (code <= 1)%nat.
Proof.
  intros Hn. unfold bfgs_adam_fallback. destruct (scipy_lbfgs_wrapper lg mini p) as [[x l] ok].
  destruct (ok && xisfinite l && xltb (Fin 0) l)%bool.
  - eexists _, _, _, _. split; [reflexivity|]. lia.
  - destruct (wrapper_ok pf gf pc pz adam lg p n nw (1 / 100) 50 None (Fin 0) Hn) as ((fr & t) & ->);
      [lia|left; reflexivity|]. cbn [bind]. eexists _, _, _, _. split; [reflexivity|]. lia.
Qed.

Lemma fallback_code {P G S} pf gf pc (pz : P) (adam : R -> optimizer P G S) lg mini p n nw x l b code :
  bfgs_adam_fallback pf gf pc pz adam lg mini p n nw = Ok (x, l, b, code) -> (code <= 1)%nat.
Proof.
  unfold bfgs_adam_fallback. destruct (scipy_lbfgs_wrapper lg mini p) as [[x' l'] ok].
  destruct (ok && xisfinite l' && xltb (Fin 0) l')%bool.
  - intros [= <- <- <- <-]. lia.
  - destruct (jax_adam_wrapper pf gf pc pz adam lg p n nw (1 / 100) 50 None (Fin 0)) as [[fr t]|];
      cbn [bind]; [|discriminate]. intros [= <- <- <- <-]. lia.
Qed.

Section Whole.
  Context {S : Type}.
  Variable f4 : xr -> xr.
  Variable adam : R -> optimizer (Varied xr) (Varied xr) S.
  Variable minimize : (Varied xr -> xr) -> (Varied xr -> Varied xr) -> Varied xr -> Varied xr * xr * bool.

  Notation FIT := (diffmah_fitter f4 adam minimize).

  Definition sentinel (fr : FitResult) : Prop :=
    p_best fr = mkParams (Fin (-99)) (Fin (-99)) (Fin (-99)) (Fin (-99)) (Fin (-99)) /\
    loss_best fr = Fin (-99) /\ fit_terminates fr = false /\ code_used fr = (-1)%Z.

  Lemma fitter_inv t m g cut tmin ns nw tpf force fr :
    FIT t m g cut tmin ns nw tpf force = Ok fr ->
    length m = length t /\ m <> [] /\
    exists u ld skip,
      get_loss_data f4 t m g cut tmin NPTS_FIT_MIN tpf = Ok (u, ld, skip) /\
      loss_data fr = ld /\ skip_fit fr = (skip || force)%bool /\
      ((skip || force)%bool = true -> sentinel fr) /\
      ((skip || force)%bool = false ->
         exists x l b code,
           bfgs_adam_fallback vfinite vfinite (vmap4 f4) (mkVaried (Fin 0) (Fin 0) (Fin 0) (Fin 0))
             adam (lg_of f4 ld) minimize u ns nw = Ok (x, l, b, code) /\
           p_best fr = get_bounded_mah_params (all_uparams (vmap4 f4 x) (ld_u_t_peak ld)) /\
           loss_best fr = l /\ fit_terminates fr = b /\ code_used fr = Z.of_nat code).
  Proof.
    unfold diffmah_fitter. destruct (Nat.eqb (length m) (length t)) eqn:E; cbn [negb]; [|discriminate].
    apply Nat.eqb_eq in E.
    assert (Hm : forall A (k : bool -> res A) r,
              bind (check_for_logmah_vs_mah_mistake m) k = Ok r -> m <> [] /\ exists w, k w = Ok r).
    { intros A k r H. destruct m; [discriminate|]. split; [discriminate|]. cbn in H. eauto. }
    intros H. apply Hm in H. destruct H as (Hne & w & H).
    destruct (get_loss_data f4 t m g cut tmin NPTS_FIT_MIN tpf) as [[[u ld] skip]|] eqn:EL;
      cbn [bind] in H; [|discriminate].
    split; [exact E|]. split; [exact Hne|]. exists u, ld, skip. split; [reflexivity|].
    destruct (skip || force)%bool eqn:ES.
    - injection H as <-. cbn [loss_data skip_fit]. split; [reflexivity|]. split; [reflexivity|].
      split; [|discriminate]. intros _. unfold sentinel. cbn. auto.
    - destruct (bfgs_adam_fallback vfinite vfinite (vmap4 f4) (mkVaried (Fin 0) (Fin 0) (Fin 0) (Fin 0))
             adam (lg_of f4 ld) minimize u ns nw) as [[[[x l] b] code]|] eqn:EB; cbn [bind] in H;
        [|discriminate].
      injection H as <-. cbn [loss_data skip_fit]. split; [reflexivity|]. split; [reflexivity|].
      split; [discriminate|]. intros _. exists x, l, b, code. cbn. auto.
  Qed.

  Lemma fitter_total t m g cut tmin ns nw tpf force :
    (0 < ns)%nat -> length m = length t -> m <> [] ->
    exists fr, FIT t m g cut tmin ns nw tpf force = Ok fr.
  Proof.
    intros Hn HL Hm. unfold diffmah_fitter. rewrite (proj2 (Nat.eqb_eq _ _) HL). cbn [negb].
    destruct (check_ok m Hm) as (w & ->). cbn [bind].
    destruct (get_loss_data_ok f4 t m g cut tmin NPTS_FIT_MIN tpf (eq_sym HL) Hm) as (((u & ld) & sk) & ->).
    cbn [bind]. destruct (sk || force)%bool; [eexists; reflexivity|].
    destruct (fallback_ok vfinite vfinite (vmap4 f4) (mkVaried (Fin 0) (Fin 0) (Fin 0) (Fin 0))
                adam (lg_of f4 ld) minimize u ns nw Hn) as (x & l & b & code & -> & _).
    cbn [bind]. eexists. reflexivity.
  Qed.

  Lemma fitter_errors t m g cut tmin ns nw tpf force :
    (length m <> length t -> FIT t m g cut tmin ns nw tpf force = Err AssertionError) /\
    (length m = length t -> m = [] -> FIT t m g cut tmin ns nw tpf force = Err ValueError).
  Proof.
    split.
    - intros H. unfold diffmah_fitter. rewrite (proj2 (Nat.eqb_neq _ _) H). reflexivity.
    - intros H ->. unfold diffmah_fitter. rewrite (proj2 (Nat.eqb_eq _ _) H). reflexivity.
  Qed.

  Lemma fitter_skip t m g cut tmin ns nw tpf force fr :
    FIT t m g cut tmin ns nw tpf force = Ok fr ->
    (skip_fit fr = true <->
       force = true \/ exists n, count_below_last xlt (log_mah_target (loss_data fr)) n /\ (n < 3)%nat) /\
    (skip_fit fr = true -> sentinel fr) /\
    (skip_fit fr = false -> within_bounds (p_best fr) /\ (code_used fr = 0 \/ code_used fr = 1)%Z).
  Proof.
    intros H. apply fitter_inv in H.
    destruct H as (_ & _ & u & ld & skip & EL & -> & ES & HS & HN). rewrite ES.
    pose proof (get_loss_data_skip _ _ _ _ _ _ _ _ _ _ _ EL) as HK.
    pose proof (npts_any (log_mah_target ld)) as HC.
    split; [|split].
    - rewrite orb_true_iff, HK. unfold NPTS_FIT_MIN. split.
      + intros [H|H]; [right; eauto|auto].
      + intros [H|(n & Hn & H)]; [auto|]. left. rewrite (count_below_fun _ _ _ _ HC Hn). exact H.
    - exact HS.
    - intros H. destruct (HN H) as (x & l & b & code & EB & -> & _ & _ & ->). split.
      + apply bounded_within.
      + apply fallback_code in EB. destruct code as [|[|code]]; cbn; auto; lia.
  Qed.

  (** ** Finite histories *)

  Variable c : R -> R.
  Hypothesis Hc : casts f4 c.

  Lemma fitter_target t m g cut tmin ns nw tpf force fr :
    (forall x, In x t -> 0 < x) ->
    FIT (map Fin t) (map Fin m) (lgm_arg g) (Fin cut) (Fin tmin) ns nw (option_map Fin tpf) force = Ok fr ->
    exists l0 sel r, last_is (floored g m) l0 /\
      subsequence_of (fit_point l0 cut g tmin) (combine t (floored g m)) sel /\
      running_max (map snd sel) r /\
      t_target (loss_data fr) = map Fin (map fst sel) /\
      log_mah_target (loss_data fr) = map Fin r /\
      (skip_fit fr = false ->
         exists tlast tp, last_is t tlast /\ ld_logt0 (loss_data fr) = Fin (log10 tlast) /\
           wanted_t_peak c t (floored g m) l0 tpf tp /\
           (5 / 100 < c tp < 20 -> t_peak (p_best fr) = Fin (c tp))).
  Proof.
    intros Hpos H. apply fitter_inv in H.
    destruct H as (HL & Hm & u & ld & skip & EL & -> & ES & _ & HN).
    rewrite !map_length in HL.
    assert (Hm' : m <> []) by (destruct m; [contradiction|discriminate]).
    destruct (get_loss_data_fin f4 c t m g cut tmin NPTS_FIT_MIN tpf Hc (eq_sym HL) Hm' Hpos)
      as (l0 & sel & r & npts & H0 & H1 & H2 & H3 & H4 & H5).
    exists l0, sel, r. split; [exact H0|]. split; [exact H1|]. split; [exact H2|].
    destruct (Nat.lt_ge_cases npts NPTS_FIT_MIN) as [HX|HX].
    - rewrite (H4 HX) in EL. injection EL as <- <- <-. cbn [t_target log_mah_target].
      split; [reflexivity|]. split; [reflexivity|]. rewrite ES. discriminate.
    - destruct (H5 HX) as (tl & tp & HT & HW & EQ). rewrite EQ in EL. injection EL as <- <- <-.
      cbn [t_target log_mah_target ld_logt0]. split; [reflexivity|]. split; [reflexivity|].
      intros HSK. rewrite ES in HSK. destruct (HN HSK) as (x & l & b & code & _ & -> & _).
      exists tl, tp. split; [exact HT|]. split; [reflexivity|]. split; [exact HW|].
      intros Htp. cbn [ld_u_t_peak]. unfold get_bounded_mah_params.
      match goal with |- context [get_early_late ?a ?b] => destruct (get_early_late a b) end.
      cbn [t_peak u_t_peak all_uparams].
      unfold get_unbounded_mah_params, get_u_early_late. cbn [u_t_peak inject p_init_of t_peak].
      cbn [MAH_PBOUNDS t_peak nconst Num_xr].
      apply x_roundtrip_closed; lra.
  Qed.
End Whole.

Lemma rel_err c r : (forall r, Rabs (c r - r) <= Rabs r / 1000) -> 0 < r ->
  999 / 1000 * r <= c r <= 1001 / 1000 * r.
Proof.
  intros H Hr. specialize (H r). rewrite (Rabs_pos_eq r) in H by lra.
  pose proof (Rle_abs (c r - r)). pose proof (Rle_abs (- (c r - r))) as H2. rewrite Rabs_Ropp in H2. lra.
Qed.

Lemma p_init_legal c l0 tp : (forall r, Rabs (c r - r) <= Rabs r / 1000) ->
  0 < c l0 < 17 -> 5 / 100 < c tp < 20 -> legal (p_init_of c l0 tp).
Proof.
  intros H H1 H2. unfold legal, p_init_of.
  cbn [logm0 logtc early_index late_index t_peak DEFAULT_MAH_PARAMS nconst Num_R].
  pose proof (rel_err c (5 / 100) H ltac:(lra)).
  pose proof (rel_err c (26137643 / 10000000) H ltac:(lra)).
  pose proof (rel_err c (12692805 / 100000000) H ltac:(lra)).
  repeat split; lra.
Qed.

Lemma vfinite_inv v : vfinite v = true -> exists w, v = inject_v w.
Proof.
  unfold vfinite. rewrite !andb_true_iff. intros (((A & B) & C) & D).
  apply finite_b in A, B, C, D. destruct A as [a A], B as [b B], C as [x C], D as [d D].
  exists (mkVaried a b x d). destruct v; cbn in *. subst. reflexivity.
Qed.

Lemma vfinite_inject w : vfinite (inject_v w) = true.
Proof. reflexivity. Qed.

Lemma vmap4_inject f4 c w : casts f4 c -> vmap4 f4 (inject_v w) = inject_v (vmap4 c w).
Proof. intros H. unfold vmap4, inject_v. cbn. now rewrite !H. Qed.

Section Finite.
  Context {S : Type}.
  Variable f4 : xr -> xr.
  Variable c : R -> R.
  Variable adam : R -> optimizer (Varied xr) (Varied xr) S.
  Variable minimize : (Varied xr -> xr) -> (Varied xr -> Varied xr) -> Varied xr -> Varied xr * xr * bool.
  Hypothesis Hround : rounding f4 c.
  Hypothesis Hstart : starts_at_input adam.
  Hypothesis Hmin : honest_minimizer minimize.

  Let Hc : casts f4 c := proj1 Hround.

  Lemma c_pos r : 0 < r -> 0 < c r.
  Proof. intros Hr. pose proof (rel_err c r (proj2 (proj2 Hround)) Hr). lra. Qed.

  Lemma lg_fin ts ys utp lt0 w : (forall t, In t ts -> 0 < t) -> ts <> [] -> length ts = length ys ->
    lg_of f4 (mkLossData (map Fin ts) (map Fin ys) (Fin utp) (Fin lt0)) (inject_v w)
    = (Fin (fst (loss_and_grads_kern (vmap4 c w) (map c ts) (map c ys) utp (c lt0))),
       inject_v (snd (loss_and_grads_kern (vmap4 c w) (map c ts) (map c ys) utp (c lt0)))).
  Proof.
    intros Hpos Hne HL. unfold lg_of. cbn [t_target log_mah_target ld_u_t_peak ld_logt0].
    rewrite (vmap4_inject f4 c w Hc), Hc, !map_map.
    rewrite !(map_ext _ (fun x => Fin (c x)) (fun x => Hc x)).
    rewrite <- !(map_map c Fin). apply x_loss_and_grads.
    - intros t Ht. apply in_map_iff in Ht. destruct Ht as (z & <- & Hz). apply c_pos. auto.
    - destruct ts; [contradiction|discriminate].
    - now rewrite !map_length.
  Qed.

  (** At finite parameters neither the loss nor the gradient is NaN or infinite. *)
  Lemma lg_clean ts ys utp lt0 v : (forall t, In t ts -> 0 < t) -> ts <> [] -> length ts = length ys ->
    vfinite v = true ->
    clean vfinite vfinite (lg_of f4 (mkLossData (map Fin ts) (map Fin ys) (Fin utp) (Fin lt0))) v.
  Proof.
    intros Hpos Hne HL Hv. destruct (vfinite_inv v Hv) as (w & ->).
    unfold clean. rewrite (lg_fin ts ys utp lt0 w Hpos Hne HL). cbn [fst snd].
    split; [exact Hv|]. split; [eexists; reflexivity|reflexivity].
  Qed.

  Lemma lg_cast ld v : lg_of f4 ld (vmap4 f4 v) = lg_of f4 ld v.
  Proof.
    unfold lg_of. f_equal. unfold vmap4. cbn. f_equal; apply Hround.
  Qed.

  Lemma vfinite_cast v : vfinite v = true -> vfinite (vmap4 f4 v) = true.
  Proof.
    intros H. destruct (vfinite_inv v H) as (w & ->). now rewrite (vmap4_inject f4 c w Hc).
  Qed.

  Lemma mean_sq_loss (w : Varied R) ts ys utp l :
    mean_sq_residual (get_bounded_mah_params (all_uparams w utp)) l (combine ts ys)
    = log_mah_loss_uparams w ts ys utp l.
  Proof. rewrite loss_R. reflexivity. Qed.

  (** Initial parameters: the final log-mass and t_peak of the halo, defaults for the rest. *)
  Lemma fitter_finite t m g cut tmin ns nw tpf force fr l0 tp :
    (0 < ns)%nat -> (forall x, In x t -> 0 < x) ->
    last_is (floored g m) l0 -> 0 < c l0 < 17 ->
    (forall tp', wanted_t_peak c t (floored g m) l0 tpf tp' -> tp' = tp) -> 5 / 100 < c tp < 20 ->
    diffmah_fitter f4 adam minimize (map Fin t) (map Fin m) (lgm_arg g) (Fin cut) (Fin tmin) ns nw
      (option_map Fin tpf) force = Ok fr ->
    skip_fit fr = false ->
    exists q tlast ts ys, p_best fr = inject q /\ legal q /\ t_peak q = c tp /\
      last_is t tlast /\
      t_target (loss_data fr) = map Fin ts /\ log_mah_target (loss_data fr) = map Fin ys /\
      let resid p := mean_sq_residual p (c (log10 tlast)) (combine (map c ts) (map c ys)) in
      loss_best fr = Fin (resid q) /\
      (code_used fr = 1%Z ->
         let p0 := p_init_of c l0 tp in
         let u0 := varied_of (get_unbounded_mah_params p0) in
         vmap4 c u0 = u0 -> legal p0 /\ resid q <= resid p0).
  Proof.
    intros Hns Hpos HL0 Hl0 Htpu Htp H HSK. apply fitter_inv in H.
    destruct H as (HL & Hm & u & ld & skip & EL & Eld & ES & _ & HN).
    rewrite !map_length in HL.
    assert (Hm' : m <> []) by (destruct m; [contradiction|discriminate]).
    destruct (get_loss_data_fin f4 c t m g cut tmin NPTS_FIT_MIN tpf Hc (eq_sym HL) Hm' Hpos)
      as (l0' & sel & r & npts & H0 & H1 & H2 & H3 & H4 & H5).
    rewrite (last_fun _ _ _ H0 HL0) in *. clear l0' H0.
    rewrite ES in HSK.
    destruct (Nat.lt_ge_cases npts NPTS_FIT_MIN) as [HX|HX].
    { rewrite (H4 HX) in EL. injection EL as <- <- <-. discriminate. }
    destruct (H5 HX) as (tl & tp' & HT & HW & EQ). rewrite EQ in EL. cbv zeta in EL.
    clear H4 H5 EQ. rewrite (Htpu _ HW) in *. clear HW tp'.
    set (p0 := p_init_of c l0 tp) in *.
    assert (HLeg : legal p0) by (apply p_init_legal; auto; apply Hround).
    rewrite (x_unbounded_transfer p0 HLeg) in EL.
    remember (get_unbounded_mah_params p0) as U eqn:HU.
    injection EL as <- <- <-.
    set (ts := map fst sel) in *.
    assert (Hts : forall z, In z ts -> 0 < z).
    { intros z Hz. unfold ts in Hz. apply in_map_iff in Hz. destruct Hz as ([a b] & <- & Hp).
      destruct (subsequence_In _ _ _ _ H1 Hp) as [Hp' _]. apply in_combine_l in Hp'. auto. }
    assert (HLr : length ts = length r).
    { unfold ts. destruct H2 as [-> _]. now rewrite !map_length. }
    assert (Hne : ts <> []).
    { intros E. rewrite E in HLr. destruct r; [|discriminate].
      destruct H3 as [[_ ->]|(top & [l' E'] & _)]; [unfold NPTS_FIT_MIN in HX; lia|].
      destruct l'; discriminate. }
    destruct (HN HSK) as (x & l & b & code & EB & EP & ELo & _ & EC).
    change (varied_of (inject_u U)) with (inject_v (varied_of U)) in EB.
    change (u_t_peak (inject_u U)) with (Fin (u_t_peak U)) in *.
    cbn [ld_u_t_peak] in EP.
    set (LD := mkLossData (map Fin ts) (map Fin r) (Fin (u_t_peak U)) (Fin (log10 tl))) in *.
    set (resid := fun p => mean_sq_residual p (c (log10 tl)) (combine (map c ts) (map c r))).
    (* the value of the loss at finite parameters *)
    assert (HLoss : forall w, fst (lg_of f4 LD (inject_v w))
              = Fin (resid (get_bounded_mah_params (all_uparams (vmap4 c w) (u_t_peak U))))).
    { intros w. unfold LD. rewrite (lg_fin ts r (u_t_peak U) (log10 tl) w Hts Hne HLr).
      cbn [fst]. unfold resid. rewrite mean_sq_loss. reflexivity. }
    (* it suffices to know the optimiser's output *)
    assert (HFin : (exists w, x = inject_v w) /\ l = fst (lg_of f4 LD x) /\
      (code = 1%nat -> exists rl, l = Fin rl /\
         rl <= resid (get_bounded_mah_params (all_uparams (vmap4 c (varied_of U)) (u_t_peak U))))).
    { clear EP EC ELo. unfold bfgs_adam_fallback in EB.
      destruct (scipy_lbfgs_wrapper (lg_of f4 LD) minimize (inject_v (varied_of U))) as [[x' l'] ok] eqn:EM.
      destruct (ok && xisfinite l' && xltb (Fin 0) l')%bool eqn:EK.
      - injection EB as <- <- <- <-. apply andb_true_iff in EK. destruct EK as [EK _].
        apply andb_true_iff in EK. destruct EK as [-> _].
        unfold scipy_lbfgs_wrapper in EM. destruct (Hmin _ _ _ _ _ EM) as (A & B).
        split; [exact A|]. split; [exact B|]. discriminate.
      - destruct (wrapper_improves vfinite vfinite (vmap4 f4) (mkVaried (Fin 0) (Fin 0) (Fin 0) (Fin 0))
          adam (lg_of f4 LD) Hstart (lg_cast LD) vfinite_cast (inject_v (varied_of U)) ns nw (1 / 100) 50
          None (Fin 0) (resid (get_bounded_mah_params (all_uparams (vmap4 c (varied_of U)) (u_t_peak U)))))
          as (fb & flag & EW & (CL & LO & rl & Erl & Hrl) & _); auto; try lia.
        { apply lg_clean; auto. }
        rewrite EW in EB. cbn [bind] in EB. injection EB as <- <- <- <-.
        split; [destruct CL as (CL & _); exact (vfinite_inv _ CL)|]. split; [symmetry; exact LO|].
        intros _. exists rl. auto. }
    destruct HFin as ((w & ->) & El & HC1).
    rewrite (vmap4_inject f4 c w Hc) in EP. rewrite <- inject_u_all, x_bounded_fin in EP.
    set (q := get_bounded_mah_params (all_uparams (vmap4 c w) (u_t_peak U))) in *.
    assert (Hq : l = Fin (resid q)) by (rewrite El, HLoss; reflexivity).
    assert (HTP : forall v, t_peak (get_bounded_mah_params (all_uparams v (u_t_peak U))) = t_peak p0).
    { intros v. pose proof (bounded_unbounded p0 HLeg) as HB. rewrite <- HU in HB.
      rewrite <- HB. unfold get_bounded_mah_params.
      destruct (get_early_late (u_early_index (all_uparams v (u_t_peak U))) _).
      destruct (get_early_late (u_early_index U) _). reflexivity. }
    exists q, tl, ts, r. split; [exact EP|]. split; [apply bounded_legal|].
    split; [unfold q; rewrite HTP; reflexivity|]. split; [exact HT|].
    rewrite Eld. cbn [LD t_target log_mah_target]. split; [reflexivity|]. split; [reflexivity|].
    cbv zeta. split; [rewrite ELo; exact Hq|].
    intros HC. rewrite EC in HC. assert (code = 1%nat) by lia.
    destruct (HC1 H) as (rl & Erl & Hrl). intros HV. rewrite <- HU in HV. split; [exact HLeg|].
    rewrite Hq in Erl. injection Erl as <-.
    rewrite HV in Hrl. change (all_uparams (varied_of U) (u_t_peak U)) with
      (mkUParams (u_logm0 U) (u_logtc U) (u_early_index U) (u_late_index U) (u_t_peak U)) in Hrl.
    replace (mkUParams (u_logm0 U) (u_logtc U) (u_early_index U) (u_late_index U) (u_t_peak U)) with U in Hrl
      by (destruct U; reflexivity).
    rewrite HU, (bounded_unbounded p0 HLeg) in Hrl. exact Hrl.
  Qed.
End Finite.
