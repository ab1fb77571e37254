(** Lemmas on the Monte Carlo generators. *)

From Coq Require Import Reals String List Bool Arith Lia Lra.
From Verif Require Import Model_Num RealAux Model_Base Model_Kernels Model_Utils Model_PopBase Model_PopData
  Model_PopParams Model_PopKernels Model_PopMC Proofs_Kernels Spec_Kernels Spec_Utils Spec_Pop Spec_PopMC Spec_TruncNorm
  Proofs_PopBase Proofs_PopParams Proofs_PopAll Proofs_PopInterp Proofs_PopKernels Proofs_PopCov Proofs_PopTpeak Proofs_PopProps.
Import ListNotations.
Local Open Scope string_scope.

(** ** The monad *)

Lemma mbind_ok {X Y} (m : mc X) (f : X -> mc Y) y tr : mbind m f = (Ok y, tr) ->
  exists x t1 t2, m = (Ok x, t1) /\ f x = (Ok y, t2) /\ tr = (t1 ++ t2)%list.
Proof.
  unfold mbind. destruct m as [[x|e] t1]; cbn; [|discriminate]. intros H. injection H as H1 H2.
  exists x, t1, (snd (f x)). refine (conj eq_refl (conj _ (eq_sym H2))). destruct (f x); cbn in *. now subst.
Qed.

Lemma mbind_eval {X Y} (m : mc X) (f : X -> mc Y) x t1 r t2 : m = (Ok x, t1) -> f x = (r, t2) ->
  mbind m f = (r, (t1 ++ t2)%list).
Proof. intros -> E. unfold mbind. cbn. now rewrite E. Qed.

Lemma mlift_ok {X} (r : res X) x tr : mlift r = (Ok x, tr) -> r = Ok x /\ tr = [].
Proof. intros H. injection H as -> <-. now split. Qed.

Lemma mret_ok {X} (x y : X) tr : mret x = (Ok y, tr) -> y = x /\ tr = [].
Proof. intros H. injection H as -> <-. now split. Qed.

Lemma mseq_ok {X} (l : list (mc X)) xs tr : mseq l = (Ok xs, tr) ->
  exists trs, l = combine (map Ok xs) trs /\ List.length trs = List.length xs /\ tr = concat trs.
Proof.
  revert xs tr. induction l as [|m l IH]; intros xs tr H.
  - apply mret_ok in H. destruct H as [-> ->]. exists []. now split.
  - cbn [mseq] in H. apply mbind_ok in H. destruct H as (x & t1 & t2 & -> & H & ->).
    apply mbind_ok in H. destruct H as (ys & t3 & t4 & H1 & H2 & ->).
    apply mret_ok in H2. destruct H2 as [-> ->]. destruct (IH _ _ H1) as (trs & -> & Hl & ->).
    exists (t1 :: trs). cbn. rewrite app_nil_r. refine (conj eq_refl (conj _ eq_refl)). now rewrite Hl.
Qed.

Lemma mseq_eval {X} (xs : list X) trs : List.length trs = List.length xs ->
  mseq (combine (map Ok xs) trs) = (Ok xs, concat trs).
Proof.
  revert trs. induction xs as [|x xs IH]; intros [|t trs] H; try discriminate H; [reflexivity|].
  cbn [map combine mseq]. rewrite (mbind_eval _ _ x t (Ok (x :: xs)) (concat trs)); [reflexivity..|].
  rewrite (mbind_eval _ _ xs (concat trs) (Ok (x :: xs)) []); [now rewrite app_nil_r|apply IH; now injection H|reflexivity].
Qed.

Ltac minv H :=
  match type of H with
  | mbind _ _ = (Ok _, _) =>
      let x := fresh "x" in let t1 := fresh "tr" in let t2 := fresh "tr" in let H1 := fresh "H" in let H2 := fresh "H" in
      apply mbind_ok in H; destruct H as (x & t1 & t2 & H1 & H2 & ->); minv H1; minv H2
  | mlift _ = (Ok _, _) => apply mlift_ok in H; let E := fresh "E" in destruct H as [H E]; subst
  | mret _ = (Ok _, _) => apply mret_ok in H; let E := fresh "E" in destruct H as [E H]; subst
  | _ => idtac
  end.

(** ** Kernels only read their parameters *)

Definition reads {A} (q p : rec A) : Prop := forall k v, getattr q k = Ok v -> getattr p k = Ok v.

Ltac kmono H :=
  repeat match goal with
  | |- context [bind (getattr ?q ?k) _ ] =>
      is_var q; let E := fresh "E" in destruct (getattr q k) eqn:E; [rewrite ?(H _ _ E); cbn [bind]|discriminate]
  end.

Section Reads.
  Context {A : Type} {N : Num A}.
  Variables (q p : rec A).
  Hypothesis H : reads q p.

  Lemma r_early sfx lgm t tp v : pred_early_index_kern sfx q lgm t tp = Ok v -> pred_early_index_kern sfx p lgm t tp = Ok v.
  Proof. unfold pred_early_index_kern. kmono H. trivial. Qed.
  Lemma r_late sfx lgm v : pred_late_index_kern sfx q lgm = Ok v -> pred_late_index_kern sfx p lgm = Ok v.
  Proof. unfold pred_late_index_kern. kmono H. trivial. Qed.
  Lemma r_logtc sfx lgm t tp v : pred_logtc_kern sfx q lgm t tp = Ok v -> pred_logtc_kern sfx p lgm t tp = Ok v.
  Proof.
    unfold pred_logtc_kern, get_c0. kmono H. trivial.
  Qed.
  Lemma r_logm0 sfx lgm t tp v : pred_logm0_kern sfx q lgm t tp = Ok v -> pred_logm0_kern sfx p lgm t tp = Ok v.
  Proof. unfold pred_logm0_kern, pred_c0_kern, pred_c1_kern. kmono H. trivial. Qed.
  Lemma r_tpc lgm t t0 u v : tpeak_cen_of_uran q lgm t t0 u = Ok v -> tpeak_cen_of_uran p lgm t t0 u = Ok v.
  Proof. unfold tpeak_cen_of_uran, utp_of_uran, frac_peaked_vs_lgm, get_utp_x0_from_lgm. kmono H. trivial. Qed.
  Lemma r_tps F lgm t u v : tpeak_sat_of_uran F q lgm t u = Ok v -> tpeak_sat_of_uran F p lgm t u = Ok v.
  Proof.
    unfold tpeak_sat_of_uran, get_utp_loc, get_utp_loc_lgm_ylo, get_utp_scale, get_utp_scale_lgm_ylo. kmono H. trivial.
  Qed.
End Reads.

Lemma getattr_combine {A} (p : rec A) names vals : getattrs p names = Ok vals ->
  reads (combine names vals) p.
Proof.
  revert vals. induction names as [|n names IH]; intros vals H k v.
  - cbn. discriminate.
  - cbn [getattrs] in H. destruct (getattr p n) as [x|] eqn:E; [|discriminate]. cbn [bind] in H.
    destruct (getattrs p names) as [xs|] eqn:E2; [|discriminate]. cbn [bind] in H. apply Ok_inj in H. subst vals.
    cbn [combine getattr]. destruct (String.eqb_spec n k) as [->|_].
    + intros Hv. now rewrite E, Hv.
    + apply IH. reflexivity.
Qed.

Lemma select_reads {A} names (p q : rec A) : select names p = Ok q -> reads q p.
Proof.
  unfold select. destruct (getattrs p names) as [vals|] eqn:E; [|discriminate]. cbn [bind]. unfold make.
  destruct (Nat.eqb _ _); [|discriminate]. intros H. apply Ok_inj in H. subst q. now apply getattr_combine.
Qed.

Lemma components_read {A} {N : Num A} (p : rec A) ps : get_component_model_params p = Ok ps ->
  Forall (fun q => reads q p) ps.
Proof.
  unfold get_component_model_params. generalize COMPONENTS as cs. intros cs. revert ps.
  induction cs as [|c cs IH]; intros ps H.
  - apply Ok_inj in H. subst ps. constructor.
  - cbn [mapM] in H. destruct (select (c_names c) p) as [q|] eqn:E; [|discriminate]. cbn [bind] in H.
    destruct (mapM _ cs) as [qs|] eqn:E2; [|discriminate]. cbn [bind] in H. apply Ok_inj in H. subst ps.
    constructor; [now apply select_reads with (c_names c)|now apply IH].
Qed.

Lemma unpack9_ok {A} (l : list (rec A)) x : unpack9 l = Ok x ->
  let '(a, b, c, d, e, f, g, h, i) := x in l = [a; b; c; d; e; f; g; h; i].
Proof.
  unfold unpack9. do 9 (destruct l as [|? l]; [discriminate|]). destruct l; [|discriminate].
  intros H. apply Ok_inj in H. now subst x.
Qed.

Section Inversion.
  Context {A : Type} {N : Num A}.
  Variables (F : A -> A -> A -> A -> A -> A) (G : rng A).

  Lemma mean_early_tp_inv g p lgm t tp m : mean_diffmah_params_early_t_peak g p lgm t tp = Ok m ->
    is_mean_early g p lgm t tp m.
  Proof.
    unfold mean_diffmah_params_early_t_peak. destruct (get_component_model_params p) as [ps|] eqn:E; [|discriminate].
    cbn [bind]. destruct (unpack9 ps) as [x|] eqn:E2; [|discriminate]. cbn [bind]. apply unpack9_ok in E2.
    destruct x as [[[[[[[[a b] c] d] e] f] h] i] j]. cbn beta iota. cbv beta iota in E2. subst ps. apply components_read in E.
    do 9 (let R := fresh "R" in apply Forall_inv in E as R; apply Forall_inv_tail in E). clear E.
    destruct (pred_logm0_kern _ _ _ _ _) as [v0|] eqn:K0; [|discriminate]. cbn [bind].
    destruct (pred_logtc_kern _ _ _ _ _) as [v1|] eqn:K1; [|discriminate]. cbn [bind].
    destruct (pred_early_index_kern _ _ _ _ _) as [v2|] eqn:K2; [|discriminate]. cbn [bind].
    destruct (pred_late_index_kern _ _ _) as [v3|] eqn:K3; [|discriminate]. cbn [bind].
    intros H. apply Ok_inj in H. subst m. refine (conj _ (conj _ (conj _ (conj _ eq_refl)))); cbn [logm0 logtc early_index late_index].
    - destruct g; cbn [sfx_of logm0_of append] in K0; (eapply r_logm0; [|exact K0]); assumption.
    - eapply r_logtc; [|exact K1]; assumption.
    - eapply r_early; [|exact K2]; assumption.
    - eapply r_late; [|exact K3]; assumption.
  Qed.

  Lemma mean_late_tp_inv g p lgm t tp m : mean_diffmah_params_late_t_peak g p lgm t tp = Ok m ->
    is_mean_late g p lgm t tp m.
  Proof.
    unfold mean_diffmah_params_late_t_peak. destruct (get_component_model_params p) as [ps|] eqn:E; [|discriminate].
    cbn [bind]. destruct (unpack9 ps) as [x|] eqn:E2; [|discriminate]. cbn [bind]. apply unpack9_ok in E2.
    destruct x as [[[[[[[[a b] c] d] e] f] h] i] j]. cbn beta iota. cbv beta iota in E2. subst ps. apply components_read in E.
    do 9 (let R := fresh "R" in apply Forall_inv in E as R; apply Forall_inv_tail in E). clear E.
    destruct (pred_logm0_kern _ _ _ _ _) as [v0|] eqn:K0; [|discriminate]. cbn [bind].
    destruct (pred_logtc_kern _ _ _ _ _) as [v1|] eqn:K1; [|discriminate]. cbn [bind].
    destruct (pred_early_index_kern _ _ _ _ _) as [v2|] eqn:K2; [|discriminate]. cbn [bind].
    destruct (pred_late_index_kern _ _ _) as [v3|] eqn:K3; [|discriminate]. cbn [bind].
    intros H. apply Ok_inj in H. subst m. refine (conj _ (conj _ (conj _ (conj _ eq_refl)))); cbn [logm0 logtc early_index late_index].
    - destruct g; cbn [sfx_of logm0_of append] in K0; (eapply r_logm0; [|exact K0]); assumption.
    - eapply r_logtc; [|exact K1]; assumption.
    - eapply r_early; [|exact K2]; assumption.
    - eapply r_late; [|exact K3]; assumption.
  Qed.

  (** The drawn version is the draw followed by the version with a given peak time. *)
  Lemma mean_early_split g p lgm t k lgt0 m tr : mean_diffmah_params_early F G g p lgm t k lgt0 = (Ok m, tr) ->
    tr = [Uniform (Split k 2 0)] /\
    peak_time F g p lgm t lgt0 (uniform G (Split k 2 0)) = Ok (t_peak m) /\
    mean_diffmah_params_early_t_peak g p lgm t (t_peak m) = Ok m.
  Proof.
    unfold mean_diffmah_params_early. intros H.
    apply mbind_ok in H. destruct H as (ps & t1 & t2 & H1 & H & ->). apply mlift_ok in H1. destruct H1 as [E ->].
    apply mbind_ok in H. destruct H as (x & t3 & t4 & H1 & H & ->). apply mlift_ok in H1. destruct H1 as [E2 ->].
    pose proof (unpack9_ok _ _ E2) as E3. destruct x as [[[[[[[[a b] c] d] e] f] h] i] j]. cbn beta iota in H. cbv beta iota in E3. subst ps.
    pose proof (components_read _ _ E) as R.
    do 9 (let R' := fresh "R" in apply Forall_inv in R as R'; apply Forall_inv_tail in R). clear R.
    apply mbind_ok in H. destruct H as (tp & t5 & t6 & H1 & H & ->).
    apply mbind_ok in H. destruct H as (v0 & t7 & t8 & K0 & H & ->). apply mlift_ok in K0. destruct K0 as [K0 ->].
    apply mbind_ok in H. destruct H as (v1 & t9 & t10 & K1 & H & ->). apply mlift_ok in K1. destruct K1 as [K1 ->].
    apply mbind_ok in H. destruct H as (v2 & t11 & t12 & K2 & H & ->). apply mlift_ok in K2. destruct K2 as [K2 ->].
    apply mbind_ok in H. destruct H as (v3 & t13 & t14 & K3 & H & ->). apply mlift_ok in K3. destruct K3 as [K3 ->].
    apply mret_ok in H. destruct H as [-> ->]. cbn [t_peak].
    assert (Q : t5 = [Uniform (Split k 2 0)] /\ peak_time F g p lgm t lgt0 (uniform G (Split k 2 0)) = Ok tp).
    { destruct g; unfold mc_tpeak_singlecen, mc_tpeak_singlesat in H1; apply mbind_ok in H1;
        destruct H1 as (u & s1 & s2 & D & H1 & ->); apply mlift_ok in H1; destruct H1 as [H1 ->];
        injection D as <- <-; (split; [reflexivity|]); [eapply r_tpc; [|exact H1]|eapply r_tps; [|exact H1]]; assumption. }
    destruct Q as [-> Q]. refine (conj eq_refl (conj Q _)).
    unfold mean_diffmah_params_early_t_peak. rewrite E. cbn [bind]. rewrite E2. cbn [bind].
    rewrite K0. cbn [bind]. rewrite K1. cbn [bind]. rewrite K2. cbn [bind]. rewrite K3. reflexivity.
  Qed.

  Lemma mean_late_split g p lgm t k lgt0 m tr : mean_diffmah_params_late F G g p lgm t k lgt0 = (Ok m, tr) ->
    tr = [Uniform (Split k 2 0)] /\
    peak_time F g p lgm t lgt0 (uniform G (Split k 2 0)) = Ok (t_peak m) /\
    mean_diffmah_params_late_t_peak g p lgm t (t_peak m) = Ok m.
  Proof.
    unfold mean_diffmah_params_late. intros H.
    apply mbind_ok in H. destruct H as (ps & t1 & t2 & H1 & H & ->). apply mlift_ok in H1. destruct H1 as [E ->].
    apply mbind_ok in H. destruct H as (x & t3 & t4 & H1 & H & ->). apply mlift_ok in H1. destruct H1 as [E2 ->].
    pose proof (unpack9_ok _ _ E2) as E3. destruct x as [[[[[[[[a b] c] d] e] f] h] i] j]. cbn beta iota in H. cbv beta iota in E3. subst ps.
    pose proof (components_read _ _ E) as R.
    do 9 (let R' := fresh "R" in apply Forall_inv in R as R'; apply Forall_inv_tail in R). clear R.
    apply mbind_ok in H. destruct H as (tp & t5 & t6 & H1 & H & ->).
    apply mbind_ok in H. destruct H as (v0 & t7 & t8 & K0 & H & ->). apply mlift_ok in K0. destruct K0 as [K0 ->].
    apply mbind_ok in H. destruct H as (v1 & t9 & t10 & K1 & H & ->). apply mlift_ok in K1. destruct K1 as [K1 ->].
    apply mbind_ok in H. destruct H as (v2 & t11 & t12 & K2 & H & ->). apply mlift_ok in K2. destruct K2 as [K2 ->].
    apply mbind_ok in H. destruct H as (v3 & t13 & t14 & K3 & H & ->). apply mlift_ok in K3. destruct K3 as [K3 ->].
    apply mret_ok in H. destruct H as [-> ->]. cbn [t_peak].
    assert (Q : t5 = [Uniform (Split k 2 0)] /\ peak_time F g p lgm t lgt0 (uniform G (Split k 2 0)) = Ok tp).
    { destruct g; unfold mc_tpeak_singlecen, mc_tpeak_singlesat in H1; apply mbind_ok in H1;
        destruct H1 as (u & s1 & s2 & D & H1 & ->); apply mlift_ok in H1; destruct H1 as [H1 ->];
        injection D as <- <-; (split; [reflexivity|]); [eapply r_tpc; [|exact H1]|eapply r_tps; [|exact H1]]; assumption. }
    destruct Q as [-> Q]. refine (conj eq_refl (conj Q _)).
    unfold mean_diffmah_params_late_t_peak. rewrite E. cbn [bind]. rewrite E2. cbn [bind].
    rewrite K0. cbn [bind]. rewrite K1. cbn [bind]. rewrite K2. cbn [bind]. rewrite K3. reflexivity.
  Qed.

  Lemma scatter_inv m d h : with_tp (add_rows (without_tp (get_unbounded_mah_params m)) d)
      (u_t_peak (get_unbounded_mah_params m)) = Ok h -> scattered m d (get_bounded_mah_params h).
  Proof.
    unfold without_tp. do 4 (destruct d as [|? d]; [cbn; discriminate|]). cbn [add_rows].
    set (u := get_unbounded_mah_params m).
    unfold with_tp. intros H. apply Ok_inj in H. subst h. do 5 eexists. split; reflexivity.
  Qed.

  Lemma draw_mv_inv k mean cov x tr : draw_mvnormal G k mean cov = (Ok x, tr) ->
    fst cov = List.length mean /\ x = add_rows mean (deviation G k cov) /\ tr = [Normal k].
  Proof.
    unfold draw_mvnormal. destruct (Nat.eqb_spec (fst cov) (List.length mean)) as [L|]; [|discriminate].
    intros H. injection H as <- <-. now split.
  Qed.

  (** What a generated halo is made of. *)
  Lemma single_inv g p lgm t k lgt0 otp e l f tr :
    mc_diffmah_params_single F G g p lgm t k lgt0 otp = (Ok (e, l, f), tr) ->
    exists tp me ml cov,
      match otp with
      | Some x => tp = x
      | None => peak_time F g p lgm t lgt0 (uniform G (Split k 2 0)) = Ok tp
      end /\
      is_mean_early g p lgm t tp me /\ is_mean_late g p lgm t tp ml /\
      get_diffmahpop_cov p lgm = Ok cov /\ fst cov = 4%nat /\
      scattered me (deviation G (Split k 2 0) cov) e /\ scattered ml (deviation G (Split k 2 1) cov) l /\
      frac_early_cens_kern p lgm t = Ok f /\
      tr = (match otp with Some _ => [] | None => [Uniform (Split k 2 0); Uniform (Split k 2 0)] end ++
            [Normal (Split k 2 0); Normal (Split k 2 1)])%list.
  Proof.
    unfold mc_diffmah_params_single. intros H.
    apply mbind_ok in H. destruct H as ([[me ml] f'] & t1 & t2 & H1 & H & ->).
    apply mbind_ok in H. destruct H as (cov & t3 & t4 & Hc & H & ->). apply mlift_ok in Hc. destruct Hc as [Hc ->].
    apply mbind_ok in H. destruct H as (re & t5 & t6 & D1 & H & ->). apply draw_mv_inv in D1. destruct D1 as (L4 & -> & ->).
    cbn in L4.
    apply mbind_ok in H. destruct H as (ue & t7 & t8 & W1 & H & ->). apply mlift_ok in W1. destruct W1 as [W1 ->].
    apply mbind_ok in H. destruct H as (rl & t9 & t10 & D2 & H & ->). apply draw_mv_inv in D2. destruct D2 as (_ & -> & ->).
    apply mbind_ok in H. destruct H as (ul & t11 & t12 & W2 & H & ->). apply mlift_ok in W2. destruct W2 as [W2 ->].
    apply mret_ok in H. destruct H as [E ->]. injection E as -> -> ->.
    apply scatter_inv in W1, W2. cbn [app].
    destruct otp as [tp|].
    - unfold mean_diffmah_params_t_peak in H1.
      apply mbind_ok in H1. destruct H1 as (me' & s1 & s2 & M1 & H1 & ->). apply mlift_ok in M1. destruct M1 as [M1 ->].
      apply mbind_ok in H1. destruct H1 as (ml' & s3 & s4 & M2 & H1 & ->). apply mlift_ok in M2. destruct M2 as [M2 ->].
      apply mbind_ok in H1. destruct H1 as (f2 & s5 & s6 & M3 & H1 & ->). apply mlift_ok in M3. destruct M3 as [M3 ->].
      apply mret_ok in H1. destruct H1 as [E ->]. injection E as -> -> ->.
      exists tp, me', ml', cov. apply mean_early_tp_inv in M1. apply mean_late_tp_inv in M2.
      now refine (conj eq_refl (conj M1 (conj M2 (conj Hc (conj L4 (conj W1 (conj W2 (conj M3 eq_refl)))))))).
    - unfold mean_diffmah_params in H1.
      apply mbind_ok in H1. destruct H1 as (me' & s1 & s2 & M1 & H1 & ->).
      apply mbind_ok in H1. destruct H1 as (ml' & s3 & s4 & M2 & H1 & ->).
      apply mbind_ok in H1. destruct H1 as (f2 & s5 & s6 & M3 & H1 & ->). apply mlift_ok in M3. destruct M3 as [M3 ->].
      apply mret_ok in H1. destruct H1 as [E ->]. injection E as -> -> ->.
      apply mean_early_split in M1. destruct M1 as (-> & T1 & M1).
      apply mean_late_split in M2. destruct M2 as (-> & T2 & M2).
      assert (ET : t_peak ml' = t_peak me') by (rewrite T1 in T2; now apply Ok_inj in T2).
      rewrite ET in M2.
      apply mean_early_tp_inv in M1. apply mean_late_tp_inv in M2.
      exists (t_peak me'), me', ml', cov.
      now refine (conj T1 (conj M1 (conj M2 (conj Hc (conj L4 (conj W1 (conj W2 (conj M3 eq_refl)))))))).
  Qed.

  Lemma scattered_t_peak m m' d d' h h' : t_peak m = t_peak m' -> scattered m d h -> scattered m' d' h' ->
    t_peak h = t_peak h'.
  Proof.
    intros E (? & ? & ? & ? & ? & -> & ->) (? & ? & ? & ? & ? & -> & ->).
    unfold get_bounded_mah_params. cbn [u_t_peak u_early_index u_late_index u_logm0 u_logtc].
    destruct (get_early_late _ _). destruct (get_early_late _ _). cbn [t_peak].
    unfold get_unbounded_mah_params. destruct (get_u_early_late _ _). destruct (get_u_early_late _ _). cbn [u_t_peak].
    now rewrite E.
  Qed.

  Lemma single_shared_tp g p lgm t k lgt0 otp e l f tr :
    mc_diffmah_params_single F G g p lgm t k lgt0 otp = (Ok (e, l, f), tr) -> t_peak e = t_peak l.
  Proof.
    intros H. apply single_inv in H. destruct H as (tp & me & ml & cov & _ & Me & Ml & _ & _ & Se & Sl & _).
    apply (scattered_t_peak me ml _ _ _ _) with (2 := Se) (3 := Sl). destruct Me as (_ & _ & _ & _ & ->).
    now destruct Ml as (_ & _ & _ & _ & ->).
  Qed.
End Inversion.

(** ** Legal populations *)

Local Open Scope R_scope.

Lemma legal_components (p : rec R) : legal_pop p -> exists a b c d e f h i j,
  get_component_model_params p = Ok [a; b; c; d; e; f; h; i; j] /\
  provides TPCENS_FLEX a /\ provides TP_SATS b /\ provides LGM0_BIMOD c /\ provides LGM0_BIMOD_SATS d /\
  provides LOGTC_BIMOD e /\ provides EARLY_INDEX_BIMOD f /\ provides LATE_INDEX_BIMOD h.
Proof.
  intros L. pose proof (legal_pop_nodup p L) as Hnd. destruct L as [Hs Hb].
  destruct (partition p Hs) as (ps & E & C & Fp & _). rewrite pop_bounds_concat, <- C in Hb. rewrite <- C in Hnd.
  apply (in_bounds_slices COMPONENTS ps components_wf Fp Hnd) in Hb.
  assert (Q : Forall2 provides COMPONENTS ps).
  { pose proof components_wf as W. clear E C Hnd Hs. change pop_components with COMPONENTS in Fp. revert W Fp Hb.
    generalize COMPONENTS as cs. intros cs W Fp. induction Fp as [|c q cs ps Hq Fp IH]; intros Hb; [constructor|].
    inversion Hb; subst. constructor.
    - split; [|assumption]. rewrite Hq. apply Forall_inv in W. apply W.
    - apply IH; [now apply Forall_inv_tail in W|assumption]. }
  unfold COMPONENTS in Q.
  repeat match goal with Q : Forall2 _ (_ :: _) _ |- _ => inversion Q; clear Q; subst end.
  match goal with Q : Forall2 _ [] _ |- _ => inversion Q; subst end.
  do 9 eexists. split; [exact E|]. refine (conj _ (conj _ (conj _ (conj _ (conj _ (conj _ _)))))); assumption.
Qed.

Ltac part H L := apply (merged_provides _ _ _ _ H); [in_list|exact L].

Lemma mean_kernels_ok g (c d e f h : rec R) lgm t tp :
  provides LGM0_BIMOD c -> provides LGM0_BIMOD_SATS d -> provides LOGTC_BIMOD e -> provides EARLY_INDEX_BIMOD f ->
  provides LATE_INDEX_BIMOD h ->
  (exists v0 v1 v2 v3, pred_logm0_kern (sfx_of g "_early") (logm0_of g c d) lgm t tp = Ok v0 /\
     pred_logtc_kern "_early" e lgm t tp = Ok v1 /\ pred_early_index_kern "_alpha" f lgm t tp = Ok v2 /\
     pred_late_index_kern "_alpha" h lgm = Ok v3) /\
  (exists v0 v1 v2 v3, pred_logm0_kern (sfx_of g "_late") (logm0_of g c d) lgm t tp = Ok v0 /\
     pred_logtc_kern "_late" e lgm t tp = Ok v1 /\ pred_early_index_kern "_beta" f lgm t tp = Ok v2 /\
     pred_late_index_kern "_beta" h lgm = Ok v3).
Proof.
  intros Pc Pd Pe Pf Ph. split.
  - assert (Q : exists v, pred_logm0_kern (sfx_of g "_early") (logm0_of g c d) lgm t tp = Ok v).
    { destruct g; cbn [sfx_of logm0_of append].
      - destruct (logm0_gain "_early" LGM0_C0_EARLY LGM0_C1_EARLY c lgm t tp) as (v & E & _);
          [in_list|part cat_LGM0_BIMOD Pc|part cat_LGM0_BIMOD Pc|eauto].
      - destruct (logm0_gain "_early_sats" LGM0_C0_EARLY_SATS LGM0_C1_EARLY_SATS d lgm t tp) as (v & E & _);
          [in_list|part cat_LGM0_BIMOD_SATS Pd|part cat_LGM0_BIMOD_SATS Pd|eauto]. }
    destruct Q as (v0 & E0).
    destruct (logtc_range "_early" LOGTC_EARLY e lgm t tp) as (v1 & E1 & _); [in_list|part cat_LOGTC_BIMOD Pe|].
    destruct (early_index_range "_alpha" EARLY_INDEX_ALPHA f lgm t tp) as (v2 & E2 & _); [in_list|part cat_EARLY_INDEX_BIMOD Pf|].
    destruct (late_index_range "_alpha" LATE_INDEX_ALPHA h lgm) as (v3 & E3 & _); [in_list|part cat_LATE_INDEX_BIMOD Ph|].
    now exists v0, v1, v2, v3.
  - assert (Q : exists v, pred_logm0_kern (sfx_of g "_late") (logm0_of g c d) lgm t tp = Ok v).
    { destruct g; cbn [sfx_of logm0_of append].
      - destruct (logm0_gain "_late" LGM0_C0_LATE LGM0_C1_LATE c lgm t tp) as (v & E & _);
          [in_list|part cat_LGM0_BIMOD Pc|part cat_LGM0_BIMOD Pc|eauto].
      - destruct (logm0_gain "_late_sats" LGM0_C0_LATE_SATS LGM0_C1_LATE_SATS d lgm t tp) as (v & E & _);
          [in_list|part cat_LGM0_BIMOD_SATS Pd|part cat_LGM0_BIMOD_SATS Pd|eauto]. }
    destruct Q as (v0 & E0).
    destruct (logtc_range "_late" LOGTC_LATE e lgm t tp) as (v1 & E1 & _); [in_list|part cat_LOGTC_BIMOD Pe|].
    destruct (early_index_range "_beta" EARLY_INDEX_BETA f lgm t tp) as (v2 & E2 & _); [in_list|part cat_EARLY_INDEX_BIMOD Pf|].
    destruct (late_index_range "_beta" LATE_INDEX_BETA h lgm) as (v3 & E3 & _); [in_list|part cat_LATE_INDEX_BIMOD Ph|].
    now exists v0, v1, v2, v3.
Qed.

Lemma mean_tp_total g (p : rec R) lgm t tp : legal_pop p ->
  (exists m, mean_diffmah_params_early_t_peak g p lgm t tp = Ok m) /\
  (exists m, mean_diffmah_params_late_t_peak g p lgm t tp = Ok m).
Proof.
  intros L. destruct (legal_components p L) as (a & b & c & d & e & f & h & i & j & E & _ & _ & Pc & Pd & Pe & Pf & Ph).
  destruct (mean_kernels_ok g c d e f h lgm t tp Pc Pd Pe Pf Ph) as ((v0 & v1 & v2 & v3 & E0 & E1 & E2 & E3) & (w0 & w1 & w2 & w3 & F0 & F1 & F2 & F3)).
  split.
  - unfold mean_diffmah_params_early_t_peak. rewrite E. cbn [bind unpack9]. rewrite E0. cbn [bind]. rewrite E1. cbn [bind].
    rewrite E2. cbn [bind]. rewrite E3. cbn [bind]. eexists. reflexivity.
  - unfold mean_diffmah_params_late_t_peak. rewrite E. cbn [bind unpack9]. rewrite F0. cbn [bind]. rewrite F1. cbn [bind].
    rewrite F2. cbn [bind]. rewrite F3. cbn [bind]. eexists. reflexivity.
Qed.

Notation TN := truncnorm_cdf_R.

Lemma mlift_eval {X} (r : res X) x : r = Ok x -> mlift r = (Ok x, []).
Proof. now intros ->. Qed.

Lemma mean_total (G : rng R) g (p : rec R) lgm t k lgt0 : legal_pop p ->
  (exists m tr, mean_diffmah_params_early TN G g p lgm t k lgt0 = (Ok m, tr)) /\
  (exists m tr, mean_diffmah_params_late TN G g p lgm t k lgt0 = (Ok m, tr)).
Proof.
  intros L. destruct (legal_components p L) as (a & b & c & d & e & f & h & i & j & E & Pa & Pb & Pc & Pd & Pe & Pf & Ph).
  assert (Q : exists tp, match g with
                  | Cen => mc_tpeak_singlecen G a lgm t (Split k 2 0) (npow10 lgt0)
                  | Sat => mc_tpeak_singlesat TN G b (Split k 2 0) lgm t
                  end = (Ok tp, [Uniform (Split k 2 0)])).
  { destruct g.
    - destruct (cen_tpeak_range a lgm t (pow10 lgt0) (uniform G (Split k 2 0)) Pa) as (tp & Et & _);
        [left; apply pow10_pos|].
      exists tp. unfold mc_tpeak_singlecen. apply (mbind_eval _ _ (uniform G (Split k 2 0)) [Uniform (Split k 2 0)] (Ok tp) []); [reflexivity|].
      exact (mlift_eval _ _ Et).
    - destruct (sat_tpeak_eval b lgm t Pb) as (loc & sc & _ & _ & _ & _ & Et). specialize (Et (uniform G (Split k 2 0))).
      eexists. unfold mc_tpeak_singlesat. apply (mbind_eval _ _ (uniform G (Split k 2 0)) [Uniform (Split k 2 0)] (Ok _) []); [reflexivity|].
      exact (mlift_eval _ _ Et). }
  destruct Q as (tp & Q).
  destruct (mean_kernels_ok g c d e f h lgm t tp Pc Pd Pe Pf Ph) as ((v0 & v1 & v2 & v3 & E0 & E1 & E2 & E3) & (w0 & w1 & w2 & w3 & F0 & F1 & F2 & F3)).
  split.
  - unfold mean_diffmah_params_early.
    do 2 eexists. eapply mbind_eval; [apply mlift_eval, E|]. eapply mbind_eval; [apply mlift_eval; reflexivity|].
    cbn beta iota. eapply mbind_eval; [exact Q|]. eapply mbind_eval; [apply mlift_eval, E0|].
    eapply mbind_eval; [apply mlift_eval, E1|]. eapply mbind_eval; [apply mlift_eval, E2|].
    eapply mbind_eval; [apply mlift_eval, E3|]. reflexivity.
  - unfold mean_diffmah_params_late.
    do 2 eexists. eapply mbind_eval; [apply mlift_eval, E|]. eapply mbind_eval; [apply mlift_eval; reflexivity|].
    cbn beta iota. eapply mbind_eval; [exact Q|]. eapply mbind_eval; [apply mlift_eval, F0|].
    eapply mbind_eval; [apply mlift_eval, F1|]. eapply mbind_eval; [apply mlift_eval, F2|].
    eapply mbind_eval; [apply mlift_eval, F3|]. reflexivity.
Qed.

Lemma single_total (G : rng R) g (p : rec R) lgm t k lgt0 otp : legal_pop p -> shapely G ->
  exists e l f tr, mc_diffmah_params_single TN G g p lgm t k lgt0 otp = (Ok (e, l, f), tr).
Proof.
  intros L [_ HG].
  assert (Q : exists me ml f tr, match otp with
      | None => mean_diffmah_params TN G g p lgm t k lgt0
      | Some tp => mean_diffmah_params_t_peak g p lgm t tp
      end = (Ok (me, ml, f), tr)).
  { destruct (frac_early_range p lgm t) as (f & Ef & _); [apply pop_components_provided; [in_list|exact L]|].
    destruct otp as [tp|].
    - destruct (mean_tp_total g p lgm t tp L) as [(me & Ee) (ml & El)]. exists me, ml, f. eexists.
      unfold mean_diffmah_params_t_peak. eapply mbind_eval; [apply mlift_eval, Ee|]. eapply mbind_eval; [apply mlift_eval, El|].
      eapply mbind_eval; [apply mlift_eval, Ef|]. reflexivity.
    - destruct (mean_total G g p lgm t k lgt0 L) as [(me & te & Ee) (ml & tl & El)]. exists me, ml, f. eexists.
      unfold mean_diffmah_params. eapply mbind_eval; [exact Ee|]. eapply mbind_eval; [exact El|].
      eapply mbind_eval; [apply mlift_eval, Ef|]. reflexivity. }
  destruct Q as (me & ml & f & tr & Q).
  destruct (covariance p lgm (or_introl L)) as (M & s & Ec & _).
  assert (D : forall k' m, exists u, with_tp (add_rows (without_tp m) (deviation G k' (4%nat, M))) (u_t_peak m) = Ok u).
  { intros k' m. specialize (HG k' (4%nat, M)). cbn in HG.
    destruct (deviation G k' (4%nat, M)) as [|d1 [|d2 [|d3 [|d4 [|d5 ds]]]]]; try discriminate HG.
    eexists. reflexivity. }
  destruct (D (Split k 2 0) (get_unbounded_mah_params me)) as (ue & De).
  destruct (D (Split k 2 1) (get_unbounded_mah_params ml)) as (ul & Dl).
  do 4 eexists. unfold mc_diffmah_params_single.
  eapply mbind_eval; [exact Q|]. cbn beta iota zeta. eapply mbind_eval; [apply mlift_eval, Ec|].
  eapply mbind_eval; [reflexivity|]. eapply mbind_eval; [apply mlift_eval, De|].
  eapply mbind_eval; [reflexivity|]. eapply mbind_eval; [apply mlift_eval, Dl|]. reflexivity.
Qed.
