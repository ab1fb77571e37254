(** Gradients of the losses of single population components. *)

From Coq Require Import Reals String List Bool Arith ZArith Lia Lra.
From Coquelicot Require Import Coquelicot.
From Verif Require Import Model_Num RealAux Model_Base Model_Kernels Model_Utils Model_PopBase Model_PopData
  Model_PopParams Model_PopKernels Model_PopMC Model_CompFit Model_Grad Model_CompGrad Spec_Utils Spec_Pop Spec_PopMC
  Spec_TruncNorm Spec_Grad Spec_CompFit Spec_CompGrad Proofs_Kernels Proofs_AD Proofs_PopBase Proofs_PopParams
  Proofs_PopInterp Proofs_PopKernels Proofs_PopCov Proofs_PopTpeak Proofs_PopAll Proofs_PopProps Proofs_PopMC
  Proofs_PopMC2 Proofs_PopLoss Proofs_CompFit Proofs_PopAD Proofs_PopAD2 Proofs_PopAD4 Proofs_PopAD5 Proofs_PopAD8 Proofs_PopAD9
  Proofs_GradEx.
Import ListNotations.
Local Open Scope R_scope.
Local Open Scope string_scope.

Notation TR x := (fun f d => tracks f x d).

(** ** Data *)

Lemma entry_lift a i : entry (lift_arg a) i = dlift (entry a i).
Proof. destruct a as [a|l]; [reflexivity|]. cbn [lift_arg entry]. exact (map_nth dlift l 0 i). Qed.

Lemma column_lift a n : column (lift_arg a) n = map dlift (column a n).
Proof. unfold column. rewrite map_map. apply map_ext. intros i. apply entry_lift. Qed.

Lemma extent_lift l : extent (map lift_arg l) = extent l.
Proof.
  unfold extent. replace (lengths (map lift_arg l)) with (lengths l); [reflexivity|].
  induction l as [|a l IH]; [reflexivity|]. unfold lengths in *. cbn [map flat_map]. rewrite <- IH. f_equal.
  destruct a; [reflexivity|]. cbn. now rewrite map_length.
Qed.

Lemma column_length {A} {N : Num A} (a : arg A) n : length (column a n) = n.
Proof. unfold column. now rewrite map_length, seq_length. Qed.

Lemma rel_collect {Z X XD} (T : (R -> X) -> XD -> Prop) (h : R -> Z -> res X) hd (l : list Z) :
  (forall z, In z l -> rel T (fun y => h y z) (hd z)) ->
  rel (fun f d => LTg T f d /\ length d = length l) (fun y => collect (h y) l) (collect hd l).
Proof.
  induction l as [|z l IH]; intros H.
  - exists (fun _ => []), []. split; [|split]; [reflexivity..|]. split; [apply LT_nil|reflexivity].
  - destruct (H z (or_introl eq_refl)) as (f & d & E1 & E2 & T1).
    destruct IH as (fl & dl & E3 & E4 & T2 & L2); [intros; apply H; now right|].
    exists (fun y => f y :: fl y), (d :: dl). split; [|split].
    + intros y. cbn [collect]. rewrite E1. cbn [bind]. rewrite E3. reflexivity.
    + cbn [collect]. rewrite E2. cbn [bind]. rewrite E4. reflexivity.
    + split; [now apply LT_cons|]. cbn. now rewrite L2.
Qed.

(** ** value_and_grad of an array *)

Lemma seed_entry_0 x l : seed_entry (x :: l) 0 = mkDual x 1 :: map dlift l.
Proof.
  unfold seed_entry. cbn [length seq map nth Nat.eqb]. f_equal.
  rewrite <- seq_shift, map_map. cbn [nth Nat.eqb].
  rewrite <- (nth_map_seq l 0) at 2. rewrite map_map. reflexivity.
Qed.
Lemma seed_entry_S x l i : seed_entry (x :: l) (S i) = dlift x :: seed_entry l i.
Proof.
  unfold seed_entry. cbn [length seq map nth Nat.eqb]. f_equal.
  rewrite <- seq_shift, map_map. reflexivity.
Qed.

Lemma LT_bump l : forall i, (i < length l)%nat -> LT 0 (bump l i) (seed_entry l i).
Proof.
  induction l as [|x l IH]; intros i Hi; [cbn in Hi; lia|]. destruct i as [|i].
  - rewrite seed_entry_0. cbn [bump]. apply (LT_cons _ (fun h => x + h) (fun _ => l)); [|apply LT_lift].
    apply (tracks_ext 0 (fun h => x + h * 1)); [intros; ring|]. apply (tracks_line x 1).
  - rewrite seed_entry_S. cbn [bump]. apply (LT_cons _ (fun _ => x) (bump l i)); [apply tracks_lift|].
    apply IH. cbn in Hi. lia.
Qed.
Lemma bump_0 l : forall i, bump l i 0 = l.
Proof. induction l as [|x l IH]; intros [|i]; cbn; [reflexivity..| |]; [now rewrite Rplus_0_r|now rewrite IH]. Qed.

Lemma grad_exact_arr (f : list R -> res R) (fd : list (Dual R) -> res (Dual R)) l :
  (forall fl dl, LT 0 fl dl -> fl 0 = l -> rel (TR 0) (fun h => f (fl h)) (fd dl)) ->
  exact_gradient_arr f l (value_and_grad_arr fd l).
Proof.
  intros H. destruct (H (fun _ => l) (map dlift l) (LT_lift 0 l) eq_refl) as (f0 & d0 & E0 & ED0 & [T0 _]).
  assert (V0 : f l = Ok (dval d0)) by (rewrite T0; apply (E0 0)).
  assert (Q : forall is, (forall i, In i is -> (i < length l)%nat) ->
    exists g, mapM (fun i => let* d := fd (seed_entry l i) in Ok (dder d)) is = Ok g /\ length g = length is /\
    forall j, (j < length is)%nat -> returns_with_derivative (fun h => f (bump l (nth j is 0%nat) h)) (dval d0) (nth j g 0)).
  { induction is as [|i is IH]; intros Hi; [exists []; cbn; intuition lia|].
    destruct IH as (g & E & EF & EG); [intros; apply Hi; now right|].
    destruct (H (bump l i) (seed_entry l i) (LT_bump l i (Hi i (or_introl eq_refl))) (bump_0 l i)) as (f1 & d1 & E1 & ED1 & [T1 T2]).
    exists (dder d1 :: g). split; [|split].
    - cbn [mapM]. rewrite ED1. cbn [bind]. rewrite E. reflexivity.
    - cbn. now f_equal.
    - intros [|j] Hj; cbn [nth].
      + exists f1. split; [exact E1|]. split; [|exact T2].
        pose proof (E1 0) as E1'. rewrite bump_0, V0 in E1'. now injection E1' as <-.
      + apply EG. cbn in Hj. lia. }
  destruct (Q (seq 0 (length l))) as (g & E & EF & EG); [intros i Hi; apply in_seq in Hi; lia|].
  rewrite seq_length in EF, EG.
  exists (dval d0), g. split; [|split; [|split]]; auto.
  - unfold value_and_grad_arr. rewrite ED0. cbn [bind]. rewrite E. reflexivity.
  - intros i Hi. specialize (EG i Hi). now rewrite seq_nth in EG.
Qed.

(** ** Indices and critical time *)

Lemma index_kernels_in f : In (index_component f, index_kernel f) uparam_kernels.
Proof. destruct f; cbn; auto 6. Qed.

Lemma rel_index x P D f m t tp : rt x P D -> legal_for (index_component f) (P x) -> off_clip_index f (P x) m t tp ->
  rel (TR x) (fun y => index_kernel f (P y) m t tp) (index_kernel f D (dlift m) (dlift t) (dlift tp)).
Proof.
  intros HP HL HC.
  assert (W : provides (index_component f) (P x)).
  { apply legal_provides; [|exact HL]. apply (proj1 (uparam_kernels_ok _ _ (index_kernels_in f))). }
  assert (RR : reads (P x) (P x)) by (intros k v H; exact H).
  assert (KE : forall s c, In (s, c) [("_alpha", EARLY_INDEX_ALPHA); ("_beta", EARLY_INDEX_BETA); ("", EARLY_INDEX_POP)] ->
    provides c (P x) -> rel (TR x) (fun y => pred_early_index_kern s (P y) m t tp)
      (pred_early_index_kern s D (dlift m) (dlift t) (dlift tp))).
  { intros s c Hi Hc. destruct (early_index_range s c (P x) m t tp Hi Hc) as (v & E & B).
    apply (rel_early x P D HP (P x) RR (fun _ => m) (fun _ => t) (fun _ => tp) _ _ _
      (tracks_lift _ _) (tracks_lift _ _) (tracks_lift _ _) s v E B). }
  assert (KL : forall s c, In (s, c) [("_early", LOGTC_EARLY); ("_late", LOGTC_LATE)] -> provides c (P x) ->
    raw_logtc s (P x) m t tp <> -(999/1000) /\ raw_logtc s (P x) m t tp <> 999/1000 ->
    rel (TR x) (fun y => pred_logtc_kern s (P y) m t tp) (pred_logtc_kern s D (dlift m) (dlift t) (dlift tp))).
  { intros s c Hi Hc [N1 N2]. destruct (logtc_range s c (P x) m t tp Hi Hc) as (v & E & _).
    apply (rel_logtc x P D HP (P x) RR (fun _ => m) (fun _ => t) (fun _ => tp) _ _ _
      (tracks_lift _ _) (tracks_lift _ _) (tracks_lift _ _) s v E N1 N2). }
  destruct f; cbn [index_component index_kernel off_clip_index] in *.
  - apply (KE _ EARLY_INDEX_ALPHA); [cbn; auto|exact W].
  - apply (KE _ EARLY_INDEX_BETA); [cbn; auto|exact W].
  - apply (KE _ EARLY_INDEX_POP); [cbn; auto|exact W].
  - apply (KL _ LOGTC_EARLY); [cbn; auto|exact W|exact HC].
  - apply (KL _ LOGTC_LATE); [cbn; auto|exact W|exact HC].
Qed.

Lemma index_grad f us (pts : list (R * R * R * R)) p :
  length us = length (c_pdict (index_component f)) -> pts <> [] ->
  get_bounded_params (index_component f) (combine (c_unames (index_component f)) us) = Ok p ->
  (forall m t tp y, In (m, t, tp, y) pts -> off_clip_index f p m t tp) ->
  exact_gradient_arr (fun u => uparam_loss_kern (index_component f) (index_kernel f) (PArr u) (columns4 pts)) us
    (index_loss_and_grads_kern f us (columns4 pts)).
Proof.
  intros HL Hp Ep HC. set (c := index_component f) in *.
  destruct (uparam_kernels_ok c _ (index_kernels_in f)) as [W _].
  destruct (make_unames c us HL) as [Em Hu].
  destruct (proj1 (acts_bijection c _ _ W (acts_single c W)) _ Hu) as (p' & Ep' & Lp & _).
  fold c in Ep'. rewrite Ep in Ep'. injection Ep' as <-.
  unfold index_loss_and_grads_kern, columns4. apply grad_exact_arr. intros fl dl HT H0.
  unfold uparam_loss_kern. cbn [star]. fold c. subst us.
  destruct (rel_make 0 (c_unames c) fl dl _ Em HT) as (fu & du & Eu & Edu & Tu).
  assert (U0 : fu 0 = combine (c_unames c) (fl 0)) by (rewrite Eu in Em; now injection Em).
  rewrite <- U0 in Ep.
  destruct (smooth_bounded c 0 fu du p Ep Tu) as (fp & dp & Efp & Edp & Tp).
  assert (P0 : fp 0 = p) by (rewrite Efp in Ep; now injection Ep).
  set (a1 := Arr (map (fun z : R * R * R * R => fst (fst (fst z))) pts)).
  set (a2 := Arr (map (fun z : R * R * R * R => snd (fst (fst z))) pts)).
  set (a3 := Arr (map (fun z : R * R * R * R => snd (fst z)) pts)).
  set (a4 := Arr (map (fun z : R * R * R * R => snd z) pts)).
  assert (X : extent [a1; a2; a3; a4] = Ok (length pts)) by apply extent4.
  destruct (rel_collect (TR 0) (fun y i => index_kernel f (fp y) (entry a1 i) (entry a2 i) (entry a3 i))
    (fun i => index_kernel f dp (entry (lift_arg a1) i) (entry (lift_arg a2) i) (entry (lift_arg a3) i))
    (seq 0 (length pts))) as (fr & dr & Er & Edr & Tr & Lr).
  { intros i Hi. apply in_seq in Hi. rewrite !entry_lift. apply rel_index; [exact Tp|now rewrite P0|rewrite P0].
    set (d0 := (0, 0, 0, 0) : R * R * R * R).
    unfold a1, a2, a3. rewrite !(entry_map _ pts d0 i) by lia.
    apply (HC _ _ _ (snd (nth i pts d0))). destruct (nth i pts d0) as [[[m t] tp] y] eqn:En. cbn. rewrite <- En.
    apply nth_In. lia. }
  rewrite seq_length in Lr.
  apply (rel_ext (TR 0) (fun y => mse (fr y) (column a4 (length pts))) _ (mse dr (column (lift_arg a4) (length pts)))).
  - intros y. rewrite Eu. cbn [bind]. rewrite Efp. cbn [bind]. rewrite X. cbn [bind]. rewrite Er. reflexivity.
  - rewrite Edu. cbn [bind]. rewrite Edp. cbn [bind].
    change [lift_arg a1; lift_arg a2; lift_arg a3; lift_arg a4] with (map lift_arg [a1; a2; a3; a4]).
    rewrite extent_lift, X. cbn [bind]. rewrite Edr. reflexivity.
  - rewrite column_lift. apply (rel_mse 0 (length pts)); [split; assumption|apply column_length|].
    destruct pts; [congruence|cbn; lia].
Qed.

(** ** z=0 mass *)

Lemma rel_mass x P D c s t tp v : rt x P D -> mass_kernel c s (P x) t tp = Ok v -> off_clip_mass c s (P x) t tp ->
  rel (TR x) (fun y => mass_kernel c s (P y) t tp) (mass_kernel c s D (dlift t) (dlift tp)).
Proof.
  intros HP Ha HC. assert (RR : reads (P x) (P x)) by (intros k w H; exact H).
  pose proof (tracks_lift t x) as Ht. pose proof (tracks_lift tp x) as Htp.
  destruct c; cbn [mass_kernel off_clip_mass] in *.
  - unfold pred_c0_kern in *.
    rgetp Ha RR HP f1 d1 H1 V1. rgetp Ha RR HP f2 d2 H2 V2. rgetp Ha RR HP f3 d3 H3 V3. rgetp Ha RR HP f4 d4 H4 V4.
    rgetp Ha RR HP f5 d5 H5 V5. clear Ha. unfold LGM0_C0_XTP, LGM0_GLOBAL_K.
    apply (rel_ok (TR x) (fun y => _)). apply (t_clip_min x (fun y => _) (fun y => _)); tk.
    rewrite V1, V2, V3, V4, V5. exact HC.
  - unfold pred_c1_kern in *.
    rgetp Ha RR HP f1 d1 H1 V1. rgetp Ha RR HP f2 d2 H2 V2. rgetp Ha RR HP f3 d3 H3 V3. rgetp Ha RR HP f4 d4 H4 V4.
    rgetp Ha RR HP f5 d5 H5 V5. rgetp Ha RR HP f6 d6 H6 V6. clear Ha. unfold LGM0_C1_XTP, LGM0_GLOBAL_K, LGM0_CLIP_TP_K.
    apply (rel_ok (TR x) (fun y => _)). apply (t_clip_min x (fun y => _) (fun y => _)); tk.
    rewrite V1, V2, V3, V4, V5, V6. exact HC.
Qed.

(** mse with the data first *)
Lemma rel_mse' x n f d (l : list R) : rowt x n f d -> length l = n -> (0 < n)%nat ->
  rel (TR x) (fun y => mse l (f y)) (mse (map dlift l) d).
Proof.
  intros H El Hn. exists (fun y => pop_mse l (f y)), (pop_mse (map dlift l) d). split; [|split].
  - intros y. unfold mse. rewrite (rowt_length _ _ _ _ y H), El, Nat.eqb_refl. reflexivity.
  - unfold mse. rewrite map_length, (proj2 H), El, Nat.eqb_refl. reflexivity.
  - unfold pop_mse.
    assert (HL : rowt x n (fun _ => l) (map dlift l)) by (split; [apply LT_lift|now rewrite map_length]).
    assert (HC : rowt x n (fun y => map (fun xy => let d := nsub (snd xy) (fst xy) in nmul d d) (combine l (f y)))
                   (map (fun xy => let d := nsub (snd xy) (fst xy) in nmul d d) (combine (map dlift l) d))).
    { apply (rowt_combine x n (fun _ => l) (map dlift l) f d (fun xy => let d := nsub (snd xy) (fst xy) in nmul d d)); auto.
      intros g e [G1 G2]. cbv zeta.
      apply (t_mul x (fun y => nsub (snd (g y)) (fst (g y))) (fun y => nsub (snd (g y)) (fst (g y))));
        apply (t_sub x (fun y => snd (g y)) (fun y => fst (g y))); assumption. }
    apply t_nmean; [exact (proj1 HC)|]. intros E. apply (f_equal (@length _)) in E.
    rewrite map_length, combine_length, map_length, El, (proj2 H), Nat.min_id in E. cbn in E. lia.
Qed.

Definition lift3 (d : arg R * arg R * arg R) : arg (Dual R) * arg (Dual R) * arg (Dual R) :=
  let '(t_obs, t_peak, target) := d in (lift_arg t_obs, lift_arg t_peak, lift_arg target).

Lemma rel_mass_set x P D c s comp (pts : list (R * R * R)) : rt x P D -> In (c, s, comp) mass_files -> provides comp (P x) ->
  pts <> [] -> (forall t tp y, In (t, tp, y) pts -> off_clip_mass c s (P x) t tp) ->
  rel (TR x) (fun y => loss_kern_scalar (mass_kernel c s) (PTup (P y)) (columns3 pts))
    (loss_kern_scalar (mass_kernel c s) (PTup D) (lift3 (columns3 pts))).
Proof.
  intros HP HI Hc Hp HC.
  assert (HK : In (comp, mass_kernel c s) global_kernels).
  { cbn in HI. destruct HI as [E|[E|[E|[E|[E|[E|[E|[E|[]]]]]]]]]; injection E as <- <- <-; cbn; auto 9. }
  destruct (global_kernels_ok comp _ (P x) HK Hc) as (g & Eg).
  unfold columns3, lift3, loss_kern_scalar. cbn [with_fields bind].
  set (a1 := Arr (map (fun z : R * R * R => fst (fst z)) pts)).
  set (a2 := Arr (map (fun z : R * R * R => snd (fst z)) pts)).
  set (a3 := Arr (map (fun z : R * R * R => snd z) pts)).
  assert (X : extent [a1; a2; a3] = Ok (length pts)) by apply extent3.
  destruct (rel_collect (TR x) (fun y i => mass_kernel c s (P y) (entry a1 i) (entry a2 i))
    (fun i => mass_kernel c s D (entry (lift_arg a1) i) (entry (lift_arg a2) i))
    (seq 0 (length pts))) as (fr & dr & Er & Edr & Tr & Lr).
  { intros i Hi. apply in_seq in Hi. rewrite !entry_lift. apply (rel_mass x P D c s _ _ _ HP (Eg _ _)).
    set (d0 := (0, 0, 0) : R * R * R).
    unfold a1, a2. rewrite !(entry_map _ pts d0 i) by lia.
    apply (HC _ _ (snd (nth i pts d0))). destruct (nth i pts d0) as [[t tp] y] eqn:En. cbn. rewrite <- En.
    apply nth_In. lia. }
  rewrite seq_length in Lr.
  apply (rel_ext (TR x) (fun y => mse (column a3 (length pts)) (fr y)) _ (mse (column (lift_arg a3) (length pts)) dr)).
  - intros y. rewrite X. cbn [bind]. rewrite Er. reflexivity.
  - change [lift_arg a1; lift_arg a2; lift_arg a3] with (map lift_arg [a1; a2; a3]).
    rewrite extent_lift, X. cbn [bind]. rewrite Edr. reflexivity.
  - rewrite column_lift. apply (rel_mse' x (length pts)); [split; assumption|apply column_length|].
    destruct pts; [congruence|cbn; lia].
Qed.

Lemma rel_mass_loss x P D c s comp sets : rt x P D -> In (c, s, comp) mass_files -> provides comp (P x) ->
  (forall pts, In pts sets -> pts <> []) ->
  (forall pts t tp y, In pts sets -> In (t, tp, y) pts -> off_clip_mass c s (P x) t tp) ->
  forall f d, tracks f x d ->
  rel (TR x) (fun y => global_loss_from (f y) (mass_kernel c s) (PTup (P y)) (map columns3 sets))
    (global_loss_from d (mass_kernel c s) (PTup D) (map lift3 (map columns3 sets))).
Proof.
  intros HP HI Hc. induction sets as [|pts sets IH]; intros Hp HC f d Hf; cbn [map global_loss_from].
  - now apply (rel_ok (TR x) f).
  - destruct (rel_mass_set x P D c s comp pts HP HI Hc) as (f1 & d1 & E1 & D1 & T1).
    { apply Hp. now left. }
    { intros t tp y Hi. apply (HC pts t tp y); [now left|exact Hi]. }
    apply (rel_ext (TR x) (fun y => global_loss_from (nadd (f y) (f1 y)) (mass_kernel c s) (PTup (P y)) (map columns3 sets))
      _ (global_loss_from (nadd d d1) (mass_kernel c s) (PTup D) (map lift3 (map columns3 sets)))).
    + intros y. now rewrite E1.
    + now rewrite D1.
    + apply IH; [intros; apply Hp; now right|intros pts' t tp y H1 H2; apply (HC pts' t tp y); [now right|exact H2]|].
      now apply (t_add x f f1).
Qed.

Lemma mass_grad c s comp p sets : In (c, s, comp) mass_files -> provides comp p ->
  (forall pts, In pts sets -> pts <> []) ->
  (forall pts t tp y, In pts sets -> In (t, tp, y) pts -> off_clip_mass c s p t tp) ->
  exact_gradient (fun q => global_loss_kern (mass_kernel c s) (PTup q) (map columns3 sets)) p
    (global_loss_and_grads_kern c s p (map columns3 sets)).
Proof.
  intros HI Hc Hp HC. apply grad_exact. intros v. unfold global_loss_kern.
  apply (rel_mass_loss 0 (line p v) (seed p v) c s comp sets (rt_line p v) HI); rewrite ?line_0; auto.
  apply (t_const 0 0).
Qed.

(** ** Fractions of halos past their peak *)

Lemma t_abs x f d : tracks f x d -> f x <> 0 -> tracks (fun y => nabs (f y)) x (nabs d).
Proof.
  intros H N. unfold nabs.
  apply (t_where_lt x f (fun _ => nconst 0) (fun y => nsub (nconst 0) (f y)) f d (nconst 0)); auto.
  - apply t_const.
  - apply (t_sub x (fun _ => nconst 0) f); [apply t_const|exact H].
Qed.

Definition lift_row (r : list R * list R * R * R) : list (Dual R) * list (Dual R) * Dual R * Dual R :=
  let '(utp, y, lgm, t) := r in (map dlift utp, map dlift y, dlift lgm, dlift t).

Lemma rel_mass_row x P D r : rt x P D -> provides TPCENS_FLEX (P x) ->
  (forall u y, In (u, y) (fst (fst r)) -> misses (P x) (snd (fst r)) (snd r) u y) ->
  rel (fun f d => LT x f d /\ length d = length (fst (fst r)))
    (fun y => loss_kern_single_mass (PTup (P y)) (mass_row r)) (loss_kern_single_mass (PTup D) (lift_row (mass_row r))).
Proof.
  intros HP Hc HM. destruct r as [[pts lgm] t]. cbn [fst snd] in *. cbn [mass_row lift_row loss_kern_single_mass with_fields bind].
  destruct (utp_x0_ok (P x) lgm t Hc) as (x0 & E0 & _).
  destruct (rel_utp_x0 x P D (fun _ => lgm) (fun _ => t) _ _ x0 E0 HP (tracks_lift lgm x) (tracks_lift t x)) as (f0 & d0 & Ef & Ed & T0).
  unfold frac_peaked_vs_lgm. 
  exists (fun y => map (fun q => nabs (nsub (snd q) (sigmoid (fst q) (f0 y) TPC_K TPC_YLO TPC_YHI))) pts),
    (map (fun q => nabs (nsub (dlift (snd q)) (sigmoid (dlift (fst q)) d0 TPC_K TPC_YLO TPC_YHI))) pts).
  split; [|split; [|split]].
  - intros y. rewrite Ef. cbn [bind]. unfold mae. rewrite !map_length, Nat.eqb_refl. f_equal.
    clear. induction pts as [|[u w] pts IH]; [reflexivity|]. cbn [map combine fst snd]. f_equal. exact IH.
  - rewrite Ed. cbn [bind]. unfold mae. rewrite !map_length, Nat.eqb_refl. f_equal.
    clear. induction pts as [|[u w] pts IH]; [reflexivity|]. cbn [map combine fst snd]. f_equal. exact IH.
  - apply (LT_const_map (TR x) (fun y q => nabs (nsub (snd q) (sigmoid (fst q) (f0 y) TPC_K TPC_YLO TPC_YHI)))).
    intros [u w] Hi. cbn [fst snd]. apply (t_abs x (fun y => _)).
    + apply (t_sub x (fun y => _) (fun y => _)); [apply tracks_lift|]. unfold TPC_K, TPC_YLO, TPC_YHI.
      pose proof (tracks_lift u x). tk.
    + intros Z. apply (HM u w Hi). unfold frac_peaked_vs_lgm. rewrite Ef. cbn [bind map]. do 2 f_equal.
      cbn [nsub Num_R] in Z. apply Rminus_diag_uniq in Z. symmetry. exact Z.
  - now rewrite map_length.
Qed.

Lemma multimass_grad p rows : provides TPCENS_FLEX p -> (exists pts lgm t, In (pts, lgm, t) rows /\ pts <> []) ->
  (forall pts lgm t u y, In (pts, lgm, t) rows -> In (u, y) pts -> misses p lgm t u y) ->
  exact_gradient (fun q => loss_multimass (PTup q) (map mass_row rows)) p (loss_and_grad_multimass p (map mass_row rows)).
Proof.
  intros Hc (pts0 & lgm0 & t0 & Hin & Hne) HM. apply grad_exact. intros v. unfold loss_multimass.
  change (fun r : list R * list R * R * R => let '(utp, y, lgm, t) := r in (map dlift utp, map dlift y, dlift lgm, dlift t)) with lift_row.
  assert (Q : forall rows, (forall pts lgm t u y, In (pts, lgm, t) rows -> In (u, y) pts -> misses p lgm t u y) ->
    rel (fun f d => LT 0 (fun y => concat (f y)) (concat d) /\ length (concat d) = length (concat (map (fun r => fst (fst r)) rows)))
      (fun h => collect (loss_kern_single_mass (PTup (line p v h))) (map mass_row rows))
      (collect (loss_kern_single_mass (PTup (seed p v))) (map lift_row (map mass_row rows)))).
  { clear Hin HM rows. induction rows as [|r rows IH]; intros HM.
    - exists (fun _ => []), []. split; [|split]; [reflexivity..|]. split; [apply LT_nil|reflexivity].
    - destruct (rel_mass_row 0 (line p v) (seed p v) r (rt_line p v)) as (f1 & d1 & E1 & D1 & T1 & L1).
      + now rewrite line_0.
      + rewrite line_0. intros u y Hi. destruct r as [[pts lgm] t]. cbn [fst snd] in *. apply (HM pts lgm t u y); [now left|exact Hi].
      + destruct IH as (f2 & d2 & E2 & D2 & T2 & L2); [intros pts lgm t u y H1 H2; apply (HM pts lgm t u y); [now right|exact H2]|].
        exists (fun y => f1 y :: f2 y), (d1 :: d2). split; [|split; [|split]].
        * intros y. cbn [map collect]. rewrite E1. cbn [bind]. rewrite E2. reflexivity.
        * cbn [map collect]. rewrite D1. cbn [bind]. rewrite D2. reflexivity.
        * cbn [concat]. now apply LT_app.
        * cbn [concat map]. now rewrite !app_length, L1, L2. }
  destruct (Q rows HM) as (f & d & E & Ed & T & L).
  exists (fun h => nmean (concat (f h))), (nmean (concat d)). split; [|split].
  - intros y. now rewrite E.
  - now rewrite Ed.
  - apply (t_nmean 0 (fun h => concat (f h))); [exact T|]. intros Z. rewrite Z in L. cbn in L. symmetry in L. apply length_zero_iff_nil in L.
    assert (HH : In (hd (0,0) pts0) (concat (map (fun r : list (R * R) * R * R => fst (fst r)) rows))).
    { apply in_concat. exists pts0. split; [apply in_map_iff; exists (pts0, lgm0, t0); auto|].
      destruct pts0; [congruence|now left]. }
    rewrite L in HH. exact HH.
Qed.

Lemma flex_grad u0 (pts : list (R * R)) : pts <> [] ->
  exact_gradient_arr (fun p => flex_loss p (columns2 pts)) [u0] (flex_loss_and_grad [u0] (columns2 pts)).
Proof.
  intros Hp. unfold flex_loss_and_grad, columns2. apply grad_exact_arr. intros fl dl (L & EL & HL) H0.
  rewrite EL in H0. destruct L as [|f [|? ?]]; cbn in H0; try discriminate.
  inversion HL as [|? d ? dl' Td Hn]; subst. inversion Hn; subst. unfold flex_loss.
  set (a1 := Arr (map (fun z : R * R => fst z) pts)). set (a2 := Arr (map (fun z : R * R => snd z) pts)).
  assert (X : extent [a1; a2] = Ok (length pts)) by apply extent2.
  apply (rel_ext (TR 0) (fun h => mse (map (fun i => sigmoid (entry a1 i) (f h) TPC_K TPC_YLO TPC_YHI) (seq 0 (length pts)))
      (column a2 (length pts))) _
    (mse (map (fun i => sigmoid (entry (lift_arg a1) i) d TPC_K TPC_YLO TPC_YHI) (seq 0 (length pts)))
      (column (lift_arg a2) (length pts)))).
  - intros y. rewrite EL. cbn [map]. rewrite X. reflexivity.
  - change [lift_arg a1; lift_arg a2] with (map lift_arg [a1; a2]). rewrite extent_lift, X. reflexivity.
  - rewrite column_lift. apply (rel_mse 0 (length pts)); [|apply column_length|destruct pts; [congruence|cbn; lia]].
    split; [|now rewrite map_length, seq_length].
    apply (LT_const_map (TR 0) (fun h i => sigmoid (entry a1 i) (f h) TPC_K TPC_YLO TPC_YHI)).
    intros i _. rewrite entry_lift. unfold TPC_K, TPC_YLO, TPC_YHI. pose proof (tracks_lift (entry a1 i) 0). tk.
Qed.

(** ** Density of the peak time *)

Lemma rel_unpack2 x P D loc scale : rt x P D -> unpack2 (P x) = Ok (loc, scale) ->
  rel (fun f d => (tracks (fun y => fst (f y)) x (fst d) /\ tracks (fun y => snd (f y)) x (snd d)) /\ f x = (loc, scale))
    (fun y => unpack2 (P y)) (unpack2 D).
Proof.
  intros HP Hx. destruct (rt_values x P D HP) as (L & EL & HL). unfold unpack2 in *.
  rewrite EL in Hx. destruct L as [|f1 [|f2 [|? ?]]]; cbn [map] in Hx; try discriminate.
  remember (values D) as vd eqn:EV. clear EV.
  inversion HL as [|? d1 ? dl T1 H1 Q1 Q2]; subst. inversion H1 as [|? d2 ? dl' T2 H2 Q3 Q4]; subst. inversion H2; subst.
  exists (fun y => (f1 y, f2 y)), (d1, d2). split; [|split].
  - intros y. rewrite EL. reflexivity.
  - reflexivity.
  - split; [split; assumption|]. now injection Hx as <- <-.
Qed.

Section Pdf.
  Context (F : Dual R -> Dual R -> Dual R -> Dual R -> Dual R -> Dual R) (HF : exact_truncnorm_pdf F).

  Lemma t_pdf x ft dt floc fsc dl ds : tracks ft x dt -> tracks floc x dl -> tracks fsc x ds -> 0 < fsc x ->
    1/10 < ft x < 1 ->
    tracks (fun y => tp_pdf_kern truncnorm_pdf_R (ft y) (floc y, fsc y)) x (tp_pdf_kern F dt (dl, ds)).
  Proof.
    intros Ht Hl Hs Hp Hr. unfold tp_pdf_kern, get_a_b_loc_scale.
    apply (HF x ft (fun y => _) (fun y => _) floc fsc); auto.
    - apply (t_div x (fun y => _) (fun y => _)); [|exact Hs|lra]. unfold X_MIN. tk.
    - apply (t_div x (fun y => _) (fun y => _)); [|exact Hs|lra]. unfold X_MAX. tk.
    - cbn. split; apply Rmult_lt_compat_r; try (apply Rinv_0_lt_compat; lra); lra.
  Qed.

  (** A loss that compares a density of the bounded parameters with targets. *)
  Lemma density_grad (K : R -> R * R -> R) (KD : Dual R -> Dual R * Dual R -> Dual R) us (pts : list (R * R)) :
    length us = 2%nat -> pts <> [] ->
    (forall u w, In (u, w) pts -> forall f d, tracks (fun y => fst (f y)) 0 (fst d) -> tracks (fun y => snd (f y)) 0 (snd d) ->
       0 < snd (f 0) -> tracks (fun y => K u (f y)) 0 (KD (dlift u) d)) ->
    let loss := fun u : list R => let* u := make (c_unames UTP) u in let* p := get_bounded_params UTP u in
      let* ls := unpack2 p in let* n := extent [fst (columns2 pts); snd (columns2 pts)] in
      mse (map (fun i => K (entry (fst (columns2 pts)) i) ls) (seq 0 n)) (column (snd (columns2 pts)) n) in
    exact_gradient_arr loss us
      (value_and_grad_arr (fun u => let* u := make (c_unames UTP) u in let* p := get_bounded_params UTP u in
        let* ls := unpack2 p in let* n := extent [lift_arg (fst (columns2 pts)); lift_arg (snd (columns2 pts))] in
        mse (map (fun i => KD (entry (lift_arg (fst (columns2 pts))) i) ls) (seq 0 n))
          (column (lift_arg (snd (columns2 pts))) n)) us).
  Proof.
    intros HL Hp HK loss. destruct us as [|u1 [|u2 [|? ?]]]; try discriminate.
    destruct (utp_bounded u1 u2) as (loc & scale & Em & Ep & H1 & H2).
    unfold loss. clear loss. apply grad_exact_arr. intros fl dl HT H0. rewrite <- H0 in Em, Ep.
    destruct (rel_make 0 (c_unames UTP) fl dl _ Em HT) as (fu & du & Eu & Edu & Tu).
    assert (U0 : fu 0 = combine (c_unames UTP) (fl 0)) by (rewrite Eu in Em; now injection Em).
    rewrite <- U0 in Ep.
    destruct (smooth_bounded UTP 0 fu du _ Ep Tu) as (fp & dp & Efp & Edp & Tp).
    assert (P0 : fp 0 = utp_params loc scale) by (rewrite Efp in Ep; now injection Ep).
    destruct (rel_unpack2 0 fp dp loc scale Tp) as (fs & ds & Efs & Eds & [Ts1 Ts2] & Fs0); [now rewrite P0|].
    unfold columns2. cbn [fst snd].
    set (a1 := Arr (map (fun z : R * R => fst z) pts)). set (a2 := Arr (map (fun z : R * R => snd z) pts)).
    assert (X : extent [a1; a2] = Ok (length pts)) by apply extent2.
    apply (rel_ext (TR 0) (fun h => mse (map (fun i => K (entry a1 i) (fs h)) (seq 0 (length pts))) (column a2 (length pts))) _
      (mse (map (fun i => KD (entry (lift_arg a1) i) ds) (seq 0 (length pts))) (column (lift_arg a2) (length pts)))).
    - intros y. rewrite Eu. cbn [bind]. rewrite Efp. cbn [bind]. rewrite Efs. cbn [bind]. rewrite X. reflexivity.
    - rewrite Edu. cbn [bind]. rewrite Edp. cbn [bind]. rewrite Eds. cbn [bind].
      change [lift_arg a1; lift_arg a2] with (map lift_arg [a1; a2]). rewrite extent_lift, X. reflexivity.
    - rewrite column_lift. apply (rel_mse 0 (length pts)); [|apply column_length|destruct pts; [congruence|cbn; lia]].
      split; [|now rewrite map_length, seq_length].
      apply (LT_const_map (TR 0) (fun h i => K (entry a1 i) (fs h))).
      intros i Hi. apply in_seq in Hi. rewrite entry_lift. unfold a1. rewrite (entry_map _ pts (0, 0) i) by lia.
      apply (HK _ (snd (nth i pts (0, 0)))); [|assumption..|rewrite Fs0; cbn; lra].
      rewrite <- surjective_pairing. apply nth_In. lia.
  Qed.

  Lemma utp_grad us (pts : list (R * R)) : length us = 2%nat -> pts <> [] ->
    (forall u w, In (u, w) pts -> 1/10 < u < 1) ->
    exact_gradient_arr (fun u => utp_loss_kern truncnorm_pdf_R (PArr u) (columns2 pts)) us
      (utp_loss_and_grads_kern F us (columns2 pts)).
  Proof.
    intros HL Hp HR. refine (density_grad (fun u ls => tp_pdf_kern truncnorm_pdf_R u ls) (fun u ls => tp_pdf_kern F u ls) us pts HL Hp _).
    intros u w Hi f [d1 d2] T1 T2 Hs.
    apply (tracks_ext 0 (fun y => tp_pdf_kern truncnorm_pdf_R u (fst (f y), snd (f y))));
      [intros y; now rewrite <- surjective_pairing|].
    apply (t_pdf 0 (fun _ => u) (dlift u) (fun y => fst (f y)) (fun y => snd (f y))); auto; [apply tracks_lift|exact (HR u w Hi)].
  Qed.

  Lemma tp_cens_grad us (pts : list (R * R)) t0 : length us = 2%nat -> pts <> [] -> 0 < t0 ->
    (forall tp w, In (tp, w) pts -> t0/10 < tp < t0) ->
    exact_gradient_arr (fun u => tp_cens_loss_kern truncnorm_pdf_R (PArr u) (columns2 pts, t0)) us
      (tp_cens_loss_and_grads_kern F us (columns2 pts, t0)).
  Proof.
    intros HL Hp H0 HR.
    refine (density_grad (fun u ls => t_peak_cens_pdf_kern truncnorm_pdf_R ls u t0) (fun u ls => t_peak_cens_pdf_kern F ls u (dlift t0)) us pts HL Hp _).
    intros u w Hi f [d1 d2] T1 T2 Hs. unfold t_peak_cens_pdf_kern.
    apply (t_div 0 (fun y => _) (fun _ => t0)); [|apply tracks_lift|lra].
    apply (tracks_ext 0 (fun y => tp_pdf_kern truncnorm_pdf_R (ndiv u t0) (fst (f y), snd (f y))));
      [intros y; now rewrite <- surjective_pairing|].
    apply (t_pdf 0 (fun _ => ndiv u t0) (ndiv (dlift u) (dlift t0)) (fun y => fst (f y)) (fun y => snd (f y))); auto.
    - apply (t_div 0 (fun _ => u) (fun _ => t0)); [apply tracks_lift..|lra].
    - destruct (HR u w Hi). cbn. split; apply Rmult_lt_reg_r with t0; try lra; unfold Rdiv; rewrite ?Rmult_assoc, Rinv_l; lra.
  Qed.
End Pdf.

(** A differentiated density. *)
Definition truncnorm_pdf_dual (dx da db dl ds : Dual R) : Dual R :=
  let dz := ndiv (nsub dx dl) ds in
  let g := mkDual (gauss (dval dz)) (- dval dz * gauss (dval dz) * dder dz) in
  let den := mkDual (RInt gauss (dval da) (dval db)) (gauss (dval db) * dder db - gauss (dval da) * dder da) in
  ndiv (ndiv g den) ds.

Lemma derive_gauss z : is_derive gauss z (- z * gauss z).
Proof. unfold gauss. auto_derive; [exact I|]. unfold Rdiv. field. Qed.

Lemma truncnorm_pdf_dual_exact : exact_truncnorm_pdf truncnorm_pdf_dual.
Proof.
  intros x fx fa fb fl fs dx da db dl ds Hx Ha Hb Hl Hs Ps [Z1 Z2].
  assert (Tz : tracks (fun y => (fx y - fl y) / fs y) x (ndiv (nsub dx dl) ds)).
  { apply (t_div x (fun y => _) fs); [now apply (t_sub x fx fl)|exact Hs|lra]. }
  set (dz := ndiv (nsub dx dl) ds) in *.
  assert (Tn : tracks (fun y => gauss ((fx y - fl y) / fs y)) x (mkDual (gauss (dval dz)) (- dval dz * gauss (dval dz) * dder dz))).
  { destruct Tz as [Vz Dz]. split; cbn [dval dder]; [now rewrite Vz|]. rewrite Vz.
    set (z := (fx x - fl x) / fs x) in *.
    replace (- z * gauss z * dder dz) with (scal (dder dz) (- z * gauss z)) by (unfold scal; cbn; unfold mult; cbn; ring).
    apply (is_derive_comp gauss (fun y => (fx y - fl y) / fs y) x); [apply derive_gauss|exact Dz]. }
  assert (Td : tracks (fun y => RInt gauss (fa y) (fb y)) x _) by (apply (t_gauss_int x fa fb); [exact Ha|exact Hb]).
  pose proof (gauss_RInt_pos (fa x) (fb x) ltac:(lra)) as Pd.
  assert (T : tracks (fun y => gauss ((fx y - fl y) / fs y) / RInt gauss (fa y) (fb y) / fs y) x
    (truncnorm_pdf_dual dx da db dl ds)).
  { unfold truncnorm_pdf_dual. apply (t_div x (fun y => _) fs); [|exact Hs|lra].
    apply (t_div x (fun y => _) (fun y => _)); [exact Tn|exact Td|lra]. }
  assert (C : forall f d, tracks f x d -> continuous f x).
  { intros f d [_ D]. apply (ex_derive_continuous f). eexists; exact D. }
  assert (Near : locally x (fun y => fa y < (fx y - fl y) / fs y < fb y)).
  { pose proof (C _ _ Tz) as Cz. pose proof (C _ _ Ha) as Ca. pose proof (C _ _ Hb) as Cb.
    assert (L1 : locally x (fun y => 0 < (fx y - fl y) / fs y - fa y)).
    { assert (Cd : continuous (fun y => (fx y - fl y) / fs y - fa y) x)
        by (apply (continuous_minus (fun y => (fx y - fl y) / fs y) fa); assumption).
      apply (Cd (fun v => 0 < v)). apply (open_gt 0). cbn. lra. }
    assert (L2 : locally x (fun y => 0 < fb y - (fx y - fl y) / fs y)).
    { assert (Cd : continuous (fun y => fb y - (fx y - fl y) / fs y) x)
        by (apply (continuous_minus fb (fun y => (fx y - fl y) / fs y)); assumption).
      apply (Cd (fun v => 0 < v)). apply (open_gt 0). cbn. lra. }
    generalize (filter_and _ _ L1 L2). apply filter_imp. intros y [H1 H2]. lra. }
  assert (E : forall y, fa y < (fx y - fl y) / fs y < fb y ->
    gauss ((fx y - fl y) / fs y) / RInt gauss (fa y) (fb y) / fs y =
    truncnorm_pdf_R (fx y) (fa y) (fb y) (fl y) (fs y)).
  { intros y [H1 H2]. unfold truncnorm_pdf_R. cbv zeta. destruct Rlt_dec; [lra|]. destruct Rlt_dec; [lra|]. reflexivity. }
  destruct T as [TV TD]. split.
  - rewrite TV. apply E. lra.
  - apply (is_derive_ext_loc _ _ _ _ (filter_imp _ _ E Near)). exact TD.
Qed.

(** ** A perfect fit *)

Lemma stationary_min m D : returns_with_derivative m 0 D -> (forall h v, m h = Ok v -> 0 <= v) -> D = 0.
Proof.
  intros (L & EL & L0 & HD) Hpos.
  assert (P : forall h, L 0 <= L h). { intros h. rewrite L0. exact (Hpos h _ (EL h)). }
  apply is_derive_Reals in HD. pose (pr := exist _ D HD : derivable_pt L 0).
  change D with (derive_pt L 0 pr). apply (deriv_minimum L (-1) 1 0 pr); [lra|lra|]. intros x _ _. apply P.
Qed.

Lemma bump_length l : forall i h, length (bump l i h) = length l.
Proof. induction l as [|x l IH]; intros [|i] h; cbn; auto. Qed.

Lemma index_stationary f us (pts : list (R * R * R * R)) p :
  length us = length (c_pdict (index_component f)) -> pts <> [] ->
  get_bounded_params (index_component f) (combine (c_unames (index_component f)) us) = Ok p ->
  (forall m t tp y, In (m, t, tp, y) pts -> off_clip_index f p m t tp) ->
  (forall m t tp y, In (m, t, tp, y) pts -> index_kernel f p m t tp = Ok y) ->
  exists grad, index_loss_and_grads_kern f us (columns4 pts) = Ok (0, grad) /\ length grad = length us /\
    forall i, (i < length us)%nat -> nth i grad 0 = 0.
Proof.
  intros HL Hp Ep HC HY. destruct (index_grad f us pts p HL Hp Ep HC) as (value & grad & E & EV & EL & HG).
  set (c := index_component f) in *.
  assert (Hpos : forall us', length us' = length us -> forall v, uparam_loss_kern c (index_kernel f) (PArr us') (columns4 pts) = Ok v -> 0 <= v).
  { intros us' HL' v Ev. rewrite HL in HL'.
    destruct (uparam_loss_eval c (index_kernel f) us' pts (index_kernels_in f) HL') as (p' & g & _ & _ & _ & E').
    rewrite E' in Ev. injection Ev as <-. apply mean_sq_facts. destruct pts; [congruence|discriminate]. }
  assert (V0 : value = 0).
  { destruct (uparam_loss_eval c (index_kernel f) us pts (index_kernels_in f) HL) as (p' & g & L' & U' & G' & E').
    assert (p' = p).
    { destruct (uparam_kernels_ok c _ (index_kernels_in f)) as [W _].
      destruct (proj2 (acts_bijection c _ _ W (acts_single c W)) p' L') as (u' & E1 & _ & E2).
      rewrite U' in E1. injection E1 as <-. rewrite Ep in E2. now injection E2. }
    subst p'. rewrite EV in E'. injection E' as ->. apply mean_sq_facts; [destruct pts; [congruence|discriminate]|].
    intros a b Hi. apply in_map_iff in Hi as ([[[m t] tp] y] & Ez & Hi). cbn [fst snd] in Ez. injection Ez as <- <-.
    specialize (HY m t tp y Hi). rewrite G' in HY. now injection HY. }
  subst value. exists grad. split; [exact E|]. split; [exact EL|]. intros i Hi.
  apply (stationary_min (fun h => uparam_loss_kern c (index_kernel f) (PArr (bump us i h)) (columns4 pts))); [exact (HG i Hi)|].
  intros h v Ev. apply (Hpos (bump us i h)); [apply bump_length|exact Ev].
Qed.
