(** The results on the bounding of population parameters in machine arithmetic. *)

From Coq Require Import Reals ZArith String List Bool Arith Lra Lia.
From Flocq Require Import Core.
From Verif Require Import Model_Num Model_Kernels Model_Base Model_PopBase Model_PopData Model_PopParams
  Model_Float Spec_Pop Spec_Float Spec_PopFloat RealAux Proofs_Float Proofs_Float2 Proofs_Float3
  Proofs_Float4 Proofs_Float5 Proofs_FloatQ Proofs_PopBase Proofs_PopParams Proofs_PopAll
  Proofs_PopFloat Proofs_PopFloat2 Proofs_PopFloat3.
Import ListNotations.
Local Open Scope R_scope.
Local Open Scope string_scope.

Lemma default_params_gen {A} {N : Num A} : exists d : rec A, DEFAULT_DIFFMAHPOP_PARAMS = Ok d /\ shaped POP_NAMES d.
Proof.
  unfold DEFAULT_DIFFMAHPOP_PARAMS. rewrite <- pdict_names.
  rewrite make_kw_self by (rewrite pdict_names; apply pop_names_nodup). cbn [bind].
  eexists. split; [reflexivity|]. unfold shaped. change (map fst) with (@fields A).
  now rewrite fields_rec_const.
Qed.

Lemma has_unique {B} (u : rec B) k v w : NoDup (fields u) -> has u k v -> has u k w -> v = w.
Proof.
  unfold has. induction u as [|[k' v'] u IH]; intros Hn H1 H2; [destruct H1|].
  inversion Hn as [|? ? Hk Hn']; subst.
  destruct H1 as [H1 | H1], H2 as [H2 | H2].
  - congruence.
  - injection H1 as -> _. exfalso. apply Hk. apply (in_map fst) in H2. exact H2.
  - injection H2 as -> _. exfalso. apply Hk. apply (in_map fst) in H1. exact H1.
  - now apply IH.
Qed.

Lemma bound_size : forall k lo hi, In (k, (lo, hi)) ALL_BOUNDS ->
  Rabs lo <= bpow radix2 7 /\ Rabs hi <= bpow radix2 7 /\ lo <= hi.
Proof.
  intros k lo hi I.
  destruct (bound_facts (-149) 24 overshooting32 slack32 ltac:(lia) ltac:(reflexivity) check32 k lo hi I)
    as (H1 & H2 & H3 & _).
  change (bpow radix2 7) with 128. split; [apply Rabs_le; lra|]. split; [apply Rabs_le; lra | exact H1].
Qed.

Section Results.
  Variables emin prec : Z.
  Hypothesis Hprec : (20 <= prec)%Z.
  Hypothesis Hemin : (emin <= - prec - 100)%Z.
  Variable F : arith.
  Hypothesis HA : faithful emin prec F.
  Variable big : R.
  Hypothesis HB : bpow radix2 120 <= big.
  Variable over : list string.
  Variable slack : frac.
  Hypothesis Hslack : fpos slack.
  Hypothesis HC : forallb (fcheck emin prec over slack) FRACTIONS = true.

  Local Notation X := (Num_xfl F big).
  Local Notation pw := (bpow radix2).

  Lemma field_bounds : forall k lo hi v, In (k, (lo, hi)) ALL_BOUNDS -> v <> NaN ->
    exists r, @get_bounded_param xr X v (lo, hi) = Fin r /\ machine F r /\ rnd F lo <= r /\
      (r <= rnd F hi \/ In k over /\ r <= rnd F hi + fr slack).
  Proof.
    intros k lo hi v I Hv. destruct (bound_size k lo hi I) as (Hl & Hh & Hlh).
    destruct (bound_facts emin prec over slack ltac:(lia) Hslack HC k lo hi I) as (_ & _ & _ & H).
    destruct (param_range emin prec Hprec Hemin F HA big HB v lo hi Hv Hl Hh Hlh) as (r & E & M & R1 & R2).
    exists r. split; [exact E|]. split; [exact M|]. split; [exact R1|].
    cbv zeta in H. rewrite <- !(fa_rnd _ _ _ HA) in H. destruct H as [H | [Ik H]]; [left; lra | right].
    split; [exact Ik | lra].
  Qed.

  Lemma tuple_bounds : forall c b, In (c, b) (machine_bounders F big) ->
    forall u, shaped (c_unames c) u -> nan_free u ->
    exists p, b u = Ok p /\ shaped (c_names c) p /\ in_machine_bounds F over (fr slack) (c_bdict c) p.
  Proof.
    intros c b H u Hs Hn. destruct (bounders_fields F big c b H u Hs) as (p & E & Sp & HF).
    exists p. split; [exact E|]. split; [exact Sp|]. intros k lo hi I.
    destruct (HF k (lo, hi) I) as (k' & v & Hv & Hp).
    destruct (field_bounds k lo hi v (bounders_bounds F big c b H _ I) (Hn k' v Hv)) as (r & Er & Hr).
    exists r. rewrite <- Er. auto.
  Qed.

  Lemma pop_bounders : Forall2 (fun c b => In (c, b) (machine_bounders F big)) COMPONENTS (@BOUNDERS xr X).
  Proof.
    unfold COMPONENTS, BOUNDERS, machine_bounders. cbv zeta. cbn [map app].
    repeat (apply Forall2_cons; [cbn [In]; tauto|]). apply Forall2_nil.
  Qed.

  Lemma mapM_bounded : forall cs bs us, Forall2 (fun c b => In (c, b) (machine_bounders F big)) cs bs ->
    Forall2 (fun c q => shaped (c_unames c) q) cs us -> List.Forall nan_free us ->
    exists ps, mapM (fun fu => fst fu (snd fu)) (combine bs us) = Ok ps /\
      Forall2 (fun c q => shaped (c_names c) q) cs ps /\
      Forall2 (fun c q => in_machine_bounds F over (fr slack) (c_bdict c) q) cs ps.
  Proof.
    intros cs bs us H. revert us. induction H as [|c b cs bs Hb _ IH]; intros us Hs Hn.
    - inversion Hs; subst. exists []. cbn. auto.
    - inversion Hs as [|? u ? us' Su Hs']; subst. inversion Hn as [|? ? Hu Hn']; subst.
      destruct (tuple_bounds c b Hb u Su Hu) as (p & Ep & Sp & Bp).
      destruct (IH us' Hs' Hn') as (ps & Eps & Sps & Bps).
      exists (p :: ps). cbn [combine mapM fst snd]. rewrite Ep. cbn [bind]. rewrite Eps. cbn [bind].
      auto.
  Qed.

  Lemma pop_bounded : forall u, shaped POP_UNAMES u -> nan_free u ->
    exists p, @get_diffmahpop_params_from_u_params xr X u = Ok p /\ shaped POP_NAMES p /\
      in_machine_bounds F over (fr slack) pop_bounds p.
  Proof.
    intros u Hs Hn. destruct (component_u_params_slices u Hs) as (us & Eu & Ec & Fu).
    assert (Hn' : List.Forall nan_free us).
    { apply List.Forall_forall. intros q Hq k v Hv. apply (Hn k v). rewrite <- Ec.
      unfold has. apply in_concat. exists q. split; [exact Hq | exact Hv]. }
    destruct (mapM_bounded _ _ us pop_bounders Fu Hn') as (ps & Ep & Sp & Bp).
    exists (concat ps). unfold get_diffmahpop_params_from_u_params.
    rewrite Eu. cbn [bind]. unfold rec in *. rewrite Ep. cbn [bind].
    destruct (@default_params_gen xr X) as (d & -> & Sd). cbn [bind].
    assert (EF : fields (concat ps) = POP_NAMES).
    { rewrite (fields_concat c_names _ _ Sp). symmetry. exact pop_names_concat. }
    split; [|split].
    - apply replace_loop_all; [unfold fields; rewrite Sd; apply pop_names_nodup|].
      rewrite EF. symmetry. exact Sd.
    - exact EF.
    - intros k lo hi I. rewrite pop_bounds_concat in I. clear - Bp I.
      induction Bp as [|c p cs ps Hp _ IH]; cbn [flat_map concat] in *; [destruct I|].
      apply in_app_or in I as [I | I].
      + destruct (Hp k lo hi I) as (r & Hr & Q). exists r. split; [|exact Q].
        apply in_or_app. now left.
      + destruct (IH I) as (r & Hr & Q). exists r. split; [|exact Q]. apply in_or_app. now right.
  Qed.

  (** ** Accuracy *)

  Lemma late_not_a_pair : forall b ub, ~ In (LATE_INDEX_BIMOD, b, ub) bounding_pairs.
  Proof.
    intros b ub H.
    assert (H' : In (c_names LATE_INDEX_BIMOD) (map (fun x => c_names (fst (fst x))) bounding_pairs)).
    { apply (in_map (fun x => c_names (fst (fst x)))) in H. exact H. }
    assert (E : existsb (fun l => if list_eq_dec string_dec (c_names LATE_INDEX_BIMOD) l then true else false)
      (map (fun x => c_names (fst (fst x))) bounding_pairs) = true).
    { apply existsb_exists. eexists. split; [exact H'|].
      destruct (list_eq_dec string_dec _ _) as [_ | N]; [reflexivity | now destruct N]. }
    vm_compute in E. discriminate E.
  Qed.

  Lemma tuple_accuracy : forall c b b' ub, In (c, b) (machine_bounders F big) ->
    In (c, b', ub) bounding_pairs ->
    forall u : rec R, unbounded_for c u -> (forall k v, has u k v -> Rabs v <= 100) ->
    exists p q, b (map (fun kv => (fst kv, Fin (snd kv))) u) = Ok p /\ b' u = Ok q /\
      forall k lo hi, In (k, (lo, hi)) (c_bdict c) ->
        exists x y, has p k (Fin x) /\ has q k y /\
          Rabs (x - y) <= 200 * Rmax 1 (Rmax (Rabs lo) (Rabs hi)) * pw (- prec).
  Proof.
    intros c b b' ub Hb Hp u Hu Hv.
    destruct (bounding_pairs_act c b' ub Hp) as [Hw [Ha' _]].
    destruct (bounders_act F big c b Hb) as [[_ Ha] | [-> _]].
    2:{ exfalso. exact (late_not_a_pair b' ub Hp). }
    set (u' := map (fun kv => (fst kv, Fin (snd kv))) u).
    assert (Hu' : shaped (c_unames c) u').
    { unfold shaped, u'. rewrite map_map. cbn [fst]. exact Hu. }
    destruct (gacts_field (N := X) c b u' Hw Ha Hu') as (p & Ep & _ & HP).
    destruct (gacts_field c b' u Hw Ha' Hu) as (q & Eq & _ & HQ).
    exists p, q. split; [exact Ep|]. split; [exact Eq|]. intros k lo hi I.
    destruct (HP k _ I) as (v & V1 & V2). destruct (HQ k _ I) as (w & W1 & W2).
    assert (EV : v = Fin w).
    { apply (has_unique u' (uname k)); [unfold fields; rewrite Hu'; now apply wfc_unames_nodup | exact V1 |].
      unfold has, u'. apply in_map_iff. exists (uname k, w). split; [reflexivity | exact W1]. }
    subst v. specialize (Hv _ _ W1).
    destruct (bound_size k lo hi (bounders_bounds F big c b Hb _ I)) as (Hl & Hh & Hlh).
    change (pw 7) with 128 in *.
    rewrite (param_finite emin prec Hprec Hemin F HA big HB) in V2
      by (try assumption; change (pw 7) with 128; lra).
    eexists. eexists. split; [exact V2|]. split; [exact W2|].
    apply (param_accuracy emin prec Hprec Hemin F HA); [exact Hv | | | ].
    - apply Rle_trans with (2 := Rmax_r _ _). apply Rmax_l.
    - apply Rle_trans with (2 := Rmax_r _ _). apply Rmax_r.
    - split; [apply Rmax_l|]. apply Rmax_lub; [lra|]. now apply Rmax_lub.
  Qed.
End Results.
