(** Dual-number differentiation of the population code: operations, arrays,
    namedtuples and computations that may raise. *)

From Coq Require Import Reals String List Bool Arith ZArith Lia Lra.
From Coquelicot Require Import Coquelicot.
From Verif Require Import Model_Num RealAux Model_Base Model_Kernels Model_Utils Model_PopBase Model_PopData
  Model_PopParams Model_PopKernels Proofs_Kernels Proofs_AD Proofs_PopInterp
  Spec_Grad.
Import ListNotations.
Local Open Scope R_scope.

(** ** Scalars *)

Section Scalars.
  Context (x : R).
  Implicit Types f g lo hi : R -> R.
  Implicit Types a : Dual R.

  Lemma t_const c : tracks (fun _ => nconst c) x (nconst c).
  Proof. apply tracks_const. Qed.
  Lemma t_add f g a b : tracks f x a -> tracks g x b -> tracks (fun y => nadd (f y) (g y)) x (nadd a b).
  Proof. apply tracks_add. Qed.
  Lemma t_sub f g a b : tracks f x a -> tracks g x b -> tracks (fun y => nsub (f y) (g y)) x (nsub a b).
  Proof. apply tracks_sub. Qed.
  Lemma t_mul f g a b : tracks f x a -> tracks g x b -> tracks (fun y => nmul (f y) (g y)) x (nmul a b).
  Proof. apply tracks_mul. Qed.
  Lemma t_div f g a b : tracks f x a -> tracks g x b -> g x <> 0 -> tracks (fun y => ndiv (f y) (g y)) x (ndiv a b).
  Proof. apply tracks_div. Qed.
  Lemma t_pow10 f a : tracks f x a -> tracks (fun y => npow10 (f y)) x (npow10 a).
  Proof. apply tracks_pow10. Qed.
  Lemma t_log f a : tracks f x a -> 0 < f x -> tracks (fun y => nlog (f y)) x (nlog a).
  Proof. apply tracks_log. Qed.
  Lemma t_sigmoid fx fx0 fk flo fhi a b c d e :
    tracks fx x a -> tracks fx0 x b -> tracks fk x c -> tracks flo x d -> tracks fhi x e ->
    tracks (fun y => sigmoid (fx y) (fx0 y) (fk y) (flo y) (fhi y)) x (sigmoid a b c d e).
  Proof. apply tracks_sigmoid. Qed.

  Lemma t_sqrt f a : tracks f x a -> 0 < f x -> tracks (fun y => nsqrt (f y)) x (nsqrt a).
  Proof.
    intros H Hp. assert (HD : is_derive sqrt (f x) (/ (2 * sqrt (f x)))).
    { apply is_derive_Reals. now apply derivable_pt_lim_sqrt. }
    pose proof (tracks_comp sqrt _ f x a H HD) as [HC1 HC2].
    destruct H as [Ha _]. cbn. unfold dsqrt; cbn. rewrite Ha. split; [exact HC1|]. cbn in *.
    eapply is_derive_eq; [exact HC2|]. unfold Rdiv. apply Rmult_comm.
  Qed.

  Lemma tracks_val f a : tracks f x a -> dval a = f x.
  Proof. now intros [H _]. Qed.
  Lemma tracks_cont f a : tracks f x a -> continuous f x.
  Proof. intros [_ H]. apply (ex_derive_continuous f). eexists; eauto. Qed.
  Lemma tracks_ext f g a : (forall y, f y = g y) -> tracks f x a -> tracks g x a.
  Proof. intros E [H1 H2]. split; [now rewrite <- E|]. eapply is_derive_ext; eauto. Qed.
  Lemma tracks_loc f g a : locally x (fun y => f y = g y) -> tracks f x a -> tracks g x a.
  Proof.
    intros E [H1 H2]. split; [|eapply is_derive_ext_loc; eauto].
    rewrite H1. exact (locally_singleton _ _ E).
  Qed.

  (** Order of two tracked numbers is settled near [x] unless they tie. *)
  Lemma near_lt f g : continuous f x -> continuous g x -> f x < g x -> locally x (fun y => f y < g y).
  Proof.
    intros Hf Hg H.
    assert (Hcd : continuous (fun y => g y - f y) x)
      by exact (@continuous_minus R_UniformSpace R_AbsRing R_NormedModule g f x Hg Hf).
    assert (HL : locally x (fun y => 0 < g y - f y))
      by exact (Hcd (fun z => 0 < z) (locally_gt (g x - f x) 0 ltac:(lra))).
    revert HL. apply filter_imp. intros y Hy. lra.
  Qed.

  Lemma t_where_lt f g b1 b2 a b d1 d2 :
    tracks f x a -> tracks g x b -> tracks b1 x d1 -> tracks b2 x d2 -> f x <> g x ->
    tracks (fun y => jwhere (nltb (f y) (g y)) (b1 y) (b2 y)) x (jwhere (nltb a b) d1 d2).
  Proof. apply tracks_where_lt. Qed.

  (** A condition that is settled near [x]. *)
  Lemma t_where (c : R -> bool) (c' : bool) b1 b2 d1 d2 : locally x (fun y => c y = c') ->
    tracks b1 x d1 -> tracks b2 x d2 -> tracks (fun y => jwhere (c y) (b1 y) (b2 y)) x (jwhere c' d1 d2).
  Proof.
    intros HL H1 H2. apply tracks_loc with (fun y => jwhere c' (b1 y) (b2 y)).
    - revert HL. apply filter_imp. now intros y ->.
    - destruct c'; assumption.
  Qed.

  Lemma near_leb f g (a b : Dual R) : tracks f x a -> tracks g x b -> f x <> g x ->
    locally x (fun y => nleb (f y) (g y) = nleb a b).
  Proof.
    intros Ha Hb Hne. pose proof (tracks_cont _ _ Ha) as Ca. pose proof (tracks_cont _ _ Hb) as Cb.
    cbn. unfold dleb; cbn. rewrite (tracks_val _ _ Ha), (tracks_val _ _ Hb).
    destruct (Rtotal_order (f x) (g x)) as [L|[L|L]]; [|contradiction|].
    - pose proof (near_lt f g Ca Cb L) as HL. revert HL. apply filter_imp. intros y Hy.
      rewrite (proj2 (Rleb_true (f y) (g y))) by lra. now rewrite (proj2 (Rleb_true (f x) (g x))) by lra.
    - pose proof (near_lt g f Cb Ca L) as HL. revert HL. apply filter_imp. intros y Hy.
      rewrite (proj2 (Rleb_false (f y) (g y))) by lra. now rewrite (proj2 (Rleb_false (f x) (g x))) by lra.
  Qed.

  Lemma near_ltb f g (a b : Dual R) : tracks f x a -> tracks g x b -> f x <> g x ->
    locally x (fun y => nltb (f y) (g y) = nltb a b).
  Proof.
    intros Ha Hb Hne. pose proof (tracks_cont _ _ Ha) as Ca. pose proof (tracks_cont _ _ Hb) as Cb.
    cbn. unfold dltb; cbn. rewrite (tracks_val _ _ Ha), (tracks_val _ _ Hb).
    destruct (Rtotal_order (f x) (g x)) as [L|[L|L]]; [|contradiction|].
    - pose proof (near_lt f g Ca Cb L) as HL. revert HL. apply filter_imp. intros y Hy.
      rewrite (proj2 (Rltb_true (f y) (g y))) by lra. now rewrite (proj2 (Rltb_true (f x) (g x))) by lra.
    - pose proof (near_lt g f Cb Ca L) as HL. revert HL. apply filter_imp. intros y Hy.
      rewrite (proj2 (Rltb_false (f y) (g y))) by lra. now rewrite (proj2 (Rltb_false (f x) (g x))) by lra.
  Qed.

  Lemma t_if (c : R -> bool) (c' : bool) b1 b2 d1 d2 : locally x (fun y => c y = c') ->
    tracks b1 x d1 -> tracks b2 x d2 ->
    tracks (fun y => if c y then b1 y else b2 y) x (if c' then d1 else d2).
  Proof. intros. now apply (t_where c c' b1 b2 d1 d2). Qed.

  Lemma t_max f g a b : tracks f x a -> tracks g x b -> f x <> g x ->
    tracks (fun y => nmaximum (f y) (g y)) x (nmaximum a b).
  Proof.
    intros Ha Hb Hne. unfold nmaximum.
    apply (t_if (fun y => nleb (g y) (f y))); [apply near_leb; auto|exact Ha|].
    apply (t_if (fun y => nleb (f y) (g y))); [apply near_leb; auto|exact Hb|].
    now apply t_add.
  Qed.
  Lemma t_min f g a b : tracks f x a -> tracks g x b -> f x <> g x ->
    tracks (fun y => nminimum (f y) (g y)) x (nminimum a b).
  Proof.
    intros Ha Hb Hne. unfold nminimum.
    apply (t_if (fun y => nleb (f y) (g y))); [apply near_leb; auto|exact Ha|].
    apply (t_if (fun y => nleb (g y) (f y))); [apply near_leb; auto|exact Hb|].
    now apply t_add.
  Qed.

  Lemma t_clip f lo hi a dlo dhi : tracks f x a -> tracks lo x dlo -> tracks hi x dhi ->
    lo x < hi x -> f x <> lo x -> f x <> hi x ->
    tracks (fun y => clip (f y) (lo y) (hi y)) x (clip a dlo dhi).
  Proof.
    intros Ha Hl Hh Hlt N1 N2. unfold clip. apply (t_min (fun y => nmaximum (f y) (lo y)) hi); auto.
    - now apply t_max.
    - rewrite nmaximum_R. unfold Rmax. destruct Rle_dec; lra.
  Qed.

  Lemma t_clip_min f lo a dlo : tracks f x a -> tracks lo x dlo -> f x <> lo x ->
    tracks (fun y => clip_min (f y) (lo y)) x (clip_min a dlo).
  Proof. apply t_max. Qed.

  Lemma t_inverse_sigmoid f fx0 fk flo fhi a b c d e :
    tracks f x a -> tracks fx0 x b -> tracks fk x c -> tracks flo x d -> tracks fhi x e ->
    fk x <> 0 -> flo x < f x < fhi x ->
    tracks (fun y => inverse_sigmoid (f y) (fx0 y) (fk y) (flo y) (fhi y)) x (inverse_sigmoid a b c d e).
  Proof.
    intros Ha Hb Hc Hd He Hk Hr. unfold inverse_sigmoid. cbv zeta.
    apply (t_sub fx0); [exact Hb|].
    apply (t_div (fun y => nlog (nsub (ndiv (nsub (fhi y) (flo y)) (nsub (f y) (flo y))) (nconst 1))) fk); [|exact Hc|exact Hk].
    apply (t_log (fun y => nsub (ndiv (nsub (fhi y) (flo y)) (nsub (f y) (flo y))) (nconst 1))).
    - apply (t_sub (fun y => ndiv (nsub (fhi y) (flo y)) (nsub (f y) (flo y)))); [|apply t_const].
      apply (t_div (fun y => nsub (fhi y) (flo y)) (fun y => nsub (f y) (flo y)));
        [now apply t_sub|now apply t_sub|]. cbn. lra.
    - cbn. assert (1 < (fhi x - flo x) / (f x - flo x)); [|lra].
      apply Rmult_lt_reg_r with (f x - flo x); [lra|]. unfold Rdiv. rewrite Rmult_assoc, Rinv_l by lra. lra.
  Qed.

  Lemma t_sig_slope fx fxtp fytp fx0 fk flo fhi a b c d e h i :
    tracks fx x a -> tracks fxtp x b -> tracks fytp x c -> tracks fx0 x d -> tracks fk x e ->
    tracks flo x h -> tracks fhi x i ->
    tracks (fun y => sig_slope (fx y) (fxtp y) (fytp y) (fx0 y) (fk y) (flo y) (fhi y)) x
      (sig_slope a b c d e h i).
  Proof.
    intros. unfold sig_slope. cbv zeta.
    apply (t_add fytp (fun y => nmul (sigmoid (fx y) (fx0 y) (fk y) (flo y) (fhi y)) (nsub (fx y) (fxtp y)))); auto.
    apply (t_mul (fun y => sigmoid (fx y) (fx0 y) (fk y) (flo y) (fhi y)) (fun y => nsub (fx y) (fxtp y))).
    - now apply t_sigmoid.
    - now apply t_sub.
  Qed.

  Lemma t_bounded f a b : tracks f x a -> tracks (fun y => get_bounded_param (f y) b) x (get_bounded_param a b).
  Proof.
    intros H. unfold get_bounded_param. apply (t_sigmoid f (fun _ => _) (fun _ => _) (fun _ => _) (fun _ => _));
      auto; try apply t_const.
    apply (t_mul (fun _ => _) (fun _ => _)); [apply t_const|]. apply (t_add (fun _ => _) (fun _ => _)); apply t_const.
  Qed.
  Lemma t_unbounded f a b : tracks f x a -> fst b < f x < snd b ->
    tracks (fun y => get_unbounded_param (f y) b) x (get_unbounded_param a b).
  Proof.
    intros H Hr. unfold get_unbounded_param.
    apply (t_inverse_sigmoid f (fun _ => _) (fun _ => _) (fun _ => _) (fun _ => _)); auto; try apply t_const.
    - apply (t_mul (fun _ => _) (fun _ => _)); [apply t_const|]. apply (t_add (fun _ => _) (fun _ => _)); apply t_const.
    - unfold K_BOUNDING. cbn. lra.
  Qed.
End Scalars.

(** ** Arrays *)

(** A family of arrays of fixed length: [T] relates each entry, as a function
    of the parameter, to the entry of the array computed with duals. *)
Definition LTg {X XD} (T : (R -> X) -> XD -> Prop) (fl : R -> list X) (dl : list XD) : Prop :=
  exists L, (forall y, fl y = map (fun f => f y) L) /\ Forall2 T L dl.
Definition LT (x : R) : (R -> list R) -> list (Dual R) -> Prop := LTg (fun f d => tracks f x d).

Lemma LT_length {X XD} (T : (R -> X) -> XD -> Prop) fl dl : LTg T fl dl -> forall y, length (fl y) = length dl.
Proof.
  intros (L & E & F) y. rewrite E, map_length. clear E. induction F; cbn; auto.
Qed.

Lemma LT_nth x fl dl k : LT x fl dl -> tracks (fun y => nth k (fl y) (nconst 0)) x (nth k dl (nconst 0)).
Proof.
  intros (L & E & F). apply tracks_ext with (fun y => nth k (map (fun f => f y) L) (nconst 0)).
  { intros y. now rewrite E. }
  clear E. revert k. induction F as [|f d L D H F IH]; intros k.
  - destruct k; apply t_const.
  - destruct k; [exact H|apply IH].
Qed.

Lemma LT_nil {X XD} (T : (R -> X) -> XD -> Prop) : LTg T (fun _ => []) [].
Proof. exists []. split; [reflexivity|constructor]. Qed.
Lemma LT_cons {X XD} (T : (R -> X) -> XD -> Prop) f fl d dl : T f d -> LTg T fl dl ->
  LTg T (fun y => f y :: fl y) (d :: dl).
Proof. intros H (L & E & F). exists (f :: L). split; [intros y; cbn; now rewrite E|now constructor]. Qed.

Lemma LT_map {X XD Y YD} (T : (R -> X) -> XD -> Prop) (T' : (R -> Y) -> YD -> Prop) (h : R -> X -> Y) hd fl dl :
  LTg T fl dl -> (forall f d, T f d -> T' (fun y => h y (f y)) (hd d)) ->
  LTg T' (fun y => map (h y) (fl y)) (map hd dl).
Proof.
  intros (L & E & F) H. exists (map (fun f y => h y (f y)) L). split.
  - intros y. now rewrite E, !map_map.
  - clear E. induction F; cbn; constructor; auto.
Qed.

(** The same with knowledge of the index. *)
Lemma LT_app {X XD} (T : (R -> X) -> XD -> Prop) fl dl gl el : LTg T fl dl -> LTg T gl el ->
  LTg T (fun y => fl y ++ gl y)%list (dl ++ el)%list.
Proof.
  intros (L & E & F) (M & E' & F'). exists (L ++ M)%list. split.
  - intros y. now rewrite E, E', map_app.
  - now apply Forall2_app.
Qed.

Lemma LT_const_map {X XD Z} (T : (R -> X) -> XD -> Prop) (h : R -> Z -> X) hd (l : list Z) :
  (forall z, In z l -> T (fun y => h y z) (hd z)) -> LTg T (fun y => map (h y) l) (map hd l).
Proof.
  intros H. exists (map (fun z y => h y z) l). split.
  - intros y. now rewrite map_map.
  - induction l as [|z l IH]; cbn; constructor; [apply H; now left|]. apply IH. intros; apply H. now right.
Qed.

Lemma LT_combine {X XD Y YD} (T : (R -> X) -> XD -> Prop) (T' : (R -> Y) -> YD -> Prop) fl dl gl el :
  LTg T fl dl -> LTg T' gl el ->
  LTg (fun f d => T (fun y => fst (f y)) (fst d) /\ T' (fun y => snd (f y)) (snd d))
    (fun y => combine (fl y) (gl y)) (combine dl el).
Proof.
  intros (L & E & F) (M & E' & F').
  exists (map (fun fg y => (fst fg y, snd fg y)) (combine L M)). split.
  - intros y. rewrite E, E', map_map. cbn. clear. revert M. induction L as [|f L IH]; intros [|g M]; cbn; auto.
    now rewrite IH.
  - clear E E'. revert M el F'. induction F as [|f d L D H F IH]; intros M el F'; cbn; [constructor|].
    destruct F' as [|g e M EL HG F']; cbn; constructor; auto.
Qed.

Lemma LT_ext {X XD} (T : (R -> X) -> XD -> Prop) fl gl dl : (forall y, fl y = gl y) -> LTg T fl dl -> LTg T gl dl.
Proof. intros E (L & E' & F). exists L. split; [intros y; now rewrite <- E|exact F]. Qed.

(** Entries that do not vary *)
Lemma LT_lift x (l : list R) : LT x (fun _ => l) (map dlift l).
Proof.
  apply LT_ext with (fun y => map (fun v => v) l); [intros; apply map_id|].
  apply (LT_const_map (fun f d => tracks f x d) (fun _ v => v) dlift). intros z _. apply tracks_lift.
Qed.

(** ** Sums *)

Lemma t_fold_right x fl dl : LT x fl dl ->
  tracks (fun y => fold_right nadd (nconst 0) (fl y)) x (fold_right nadd (nconst 0) dl).
Proof.
  intros (L & E & F). apply tracks_ext with (fun y => fold_right nadd (nconst 0) (map (fun f => f y) L)).
  { intros y. now rewrite E. }
  clear E. induction F as [|f d L D H F IH]; cbn [map fold_right]; [apply t_const|].
  apply (t_add x f (fun y => fold_right nadd (nconst 0) (map (fun f => f y) L))); auto.
Qed.

Lemma t_fold_left x fl dl : LT x fl dl -> forall g a, tracks g x a ->
  tracks (fun y => fold_left nadd (fl y) (g y)) x (fold_left nadd dl a).
Proof.
  intros (L & E & F) g a Ha. apply tracks_ext with (fun y => fold_left nadd (map (fun f => f y) L) (g y)).
  { intros y. now rewrite E. }
  clear E. revert g a Ha. induction F as [|f d L D H F IH]; cbn [map fold_left]; intros g a Ha; [exact Ha|].
  apply (IH (fun y => nadd (g y) (f y))). now apply t_add.
Qed.

Lemma t_nmean x fl dl : LT x fl dl -> dl <> [] -> tracks (fun y => nmean (fl y)) x (nmean dl).
Proof.
  intros H Hn. unfold nmean, nsum.
  assert (E : forall y, length (fl y) = length dl) by now apply (LT_length _ _ _ H).
  apply tracks_ext with (fun y => ndiv (fold_left nadd (fl y) (nconst 0)) (nconst (INR (length dl)))).
  { intros y. now rewrite E. }
  apply (t_div x (fun y => fold_left nadd (fl y) (nconst 0)) (fun _ => nconst (INR (length dl)))); [|apply t_const|].
  - apply (t_fold_left x fl dl H (fun _ => nconst 0)). apply t_const.
  - cbn. apply not_0_INR. destruct dl; [congruence|discriminate].
Qed.

Lemma t_nsumn x n (h : R -> nat -> R) hd : (forall k, (k < n)%nat -> tracks (fun y => h y k) x (hd k)) ->
  tracks (fun y => nsumn n (h y)) x (nsumn n hd).
Proof.
  intros H. unfold nsumn. apply (t_fold_right x (fun y => map (h y) (seq 0 n))).
  apply (LT_const_map (fun f d => tracks f x d) h hd). intros k Hk. apply in_seq in Hk. apply H. lia.
Qed.

(** ** Namedtuples *)

(** A curve of namedtuples with the same field names, and the namedtuple of
    duals that follows it. *)
Definition rt (x : R) (P : R -> rec R) (D : rec (Dual R)) : Prop :=
  LTg (fun (f : R -> string * R) (d : string * Dual R) =>
         (forall y, fst (f y) = fst d) /\ tracks (fun y => snd (f y)) x (snd d)) P D.

Lemma rt_fields x P D : rt x P D -> forall y, fields (P y) = fields D.
Proof.
  intros (L & E & F) y. unfold fields. rewrite E, map_map. clear E.
  induction F as [|f d L D [Hf _] F IH]; cbn; [reflexivity|]. now rewrite Hf, IH.
Qed.

(** ** Computations that may raise *)

Definition rel {X XD} (T : (R -> X) -> XD -> Prop) (m : R -> res X) (md : res XD) : Prop :=
  exists f d, (forall y, m y = Ok (f y)) /\ md = Ok d /\ T f d.

Lemma rel_ok {X XD} (T : (R -> X) -> XD -> Prop) f d : T f d -> rel T (fun y => Ok (f y)) (Ok d).
Proof. intros H. exists f, d. auto. Qed.

Lemma rel_imp {X XD} (T T' : (R -> X) -> XD -> Prop) m md : (forall f d, T f d -> T' f d) -> rel T m md -> rel T' m md.
Proof. intros H (f & d & E1 & E2 & HT). exists f, d. auto. Qed.

Lemma rel_imp' {X XD} (T T' : (R -> X) -> XD -> Prop) m md :
  (forall f d, (forall y, m y = Ok (f y)) -> T f d -> T' f d) -> rel T m md -> rel T' m md.
Proof. intros H (f & d & E1 & E2 & HT). exists f, d. auto. Qed.

Lemma rel_ext {X XD} (T : (R -> X) -> XD -> Prop) m m' md md' : (forall y, m y = m' y) -> md = md' ->
  rel T m md -> rel T m' md'.
Proof. intros E <- (f & d & E1 & E2 & HT). exists f, d. split; [intros y; now rewrite <- E|auto]. Qed.

Lemma bind_ok_inv {X Y} (m : res X) (k : X -> res Y) r : bind m k = Ok r -> exists a, m = Ok a /\ k a = Ok r.
Proof. destruct m as [a|e]; cbn; [eauto|discriminate]. Qed.

(** If the computation succeeds at [x], so do its steps. *)
Lemma rel_bind {X XD Y YD} x (T : (R -> X) -> XD -> Prop) (T' : (R -> Y) -> YD -> Prop) m md k kd r :
  bind (m x) (k x) = Ok r ->
  (forall a, m x = Ok a -> rel T m md) ->
  (forall f d, (forall y, m y = Ok (f y)) -> T f d -> k x (f x) = Ok r -> rel T' (fun y => k y (f y)) (kd d)) ->
  rel T' (fun y => bind (m y) (k y)) (bind md kd).
Proof.
  intros Hx Hm Hk. destruct (bind_ok_inv _ _ _ Hx) as (a & Ea & Ek).
  destruct (Hm a Ea) as (f & d & E1 & E2 & HT).
  assert (Ha : f x = a) by (rewrite E1 in Ea; congruence).
  destruct (Hk f d E1 HT ltac:(now rewrite Ha)) as (g & e & G1 & G2 & HT').
  exists g, e. split; [|split; [|exact HT']].
  - intros y. rewrite E1. cbn. apply G1.
  - rewrite E2. exact G2.
Qed.

Lemma rel_get x P D k v : getattr (P x) k = Ok v -> rt x P D ->
  rel (fun f d => tracks f x d /\ f x = val (P x) k) (fun y => getattr (P y) k) (getattr D k).
Proof.
  intros Hx (L & E & F).
  assert (G : rel (fun f d => tracks f x d) (fun y => getattr (P y) k) (getattr D k)).
  { rewrite E in Hx. eapply rel_ext; [intros y; symmetry; now rewrite E|reflexivity|].
    clear E. revert v Hx. induction F as [|f d L D [Hf Ht] F IH]; intros v Hx; [discriminate|].
    cbn [map getattr] in *. destruct d as [kd d]. cbn [fst snd] in *.
    destruct (String.eqb kd k) eqn:Ek.
    - exists (fun y => snd (f y)), d. split; [|split; [reflexivity|exact Ht]].
      intros y. specialize (Hf y). destruct (f y) as [k' v']. cbn in *. subst. now rewrite Ek.
    - assert (Hx' : getattr (map (fun f => f x) L) k = Ok v).
      { specialize (Hf x). destruct (f x) as [k' v']. cbn in *. subst. now rewrite Ek in Hx. }
      destruct (IH v Hx') as (g & e & G1 & G2 & G3). exists g, e. split; [|auto].
      intros y. specialize (Hf y). destruct (f y) as [k' v']. cbn in *. subst. rewrite Ek. apply G1. }
  revert G. apply rel_imp'. intros f d Hf Ht. split; [exact Ht|]. unfold val. now rewrite Hf.
Qed.

Lemma rel_gets x P D ks vs : getattrs (P x) ks = Ok vs -> rt x P D ->
  rel (LT x) (fun y => getattrs (P y) ks) (getattrs D ks).
Proof.
  intros Hx HP. revert vs Hx. induction ks as [|k ks IH]; intros vs Hx; cbn [getattrs] in *.
  - apply (rel_ok (LT x) (fun _ => [])). apply LT_nil.
  - eapply rel_bind; [exact Hx|intros a Ha; apply (rel_get _ _ _ _ _ Ha HP)|].
    intros f d _ [Hf _] Hr. cbn beta in Hr |- *.
    eapply rel_bind; [exact Hr|intros a Ha; apply (IH a Ha)|].
    intros fl dl _ Hl _. cbn beta. apply (rel_ok (LT x) (fun y => f y :: fl y)). now apply LT_cons.
Qed.

Lemma combine_rt x names fl dl : LT x fl dl -> rt x (fun y => combine names (fl y)) (combine names dl).
Proof.
  intros (L & E & F). eapply LT_ext; [intros y; symmetry; rewrite E; reflexivity|]. clear E fl. unfold rt.
  revert names. induction F as [|f d L D H F IH]; intros [|n names]; cbn; try apply LT_nil.
  apply (LT_cons _ (fun y => (n, f y))); [|apply IH]. cbn. auto.
Qed.

Lemma rel_make x names fl dl r : make names (fl x) = Ok r -> LT x fl dl ->
  rel (rt x) (fun y => make names (fl y)) (make names dl).
Proof.
  intros Hx HL. unfold make in *. pose proof (LT_length _ _ _ HL) as E.
  rewrite E in Hx. destruct (Nat.eqb (length names) (length dl)) eqn:En; [|discriminate].
  eapply rel_ext with (m := fun y => Ok (combine names (fl y))); [intros y; now rewrite E, En|reflexivity|].
  apply rel_ok. now apply combine_rt.
Qed.

Lemma rel_select x P D names r : select names (P x) = Ok r -> rt x P D ->
  rel (rt x) (fun y => select names (P y)) (select names D).
Proof.
  intros Hx HP. unfold select in *. eapply rel_bind; [exact Hx|intros a Ha; apply (rel_gets _ _ _ _ _ Ha HP)|].
  intros fl dl _ HL Hr. cbn beta in *. now apply (rel_make x names fl dl r).
Qed.

Lemma rel_mapM {Z X XD} x (T : (R -> X) -> XD -> Prop) (h : R -> Z -> res X) hd (l : list Z) r :
  mapM (h x) l = Ok r -> (forall z a, In z l -> h x z = Ok a -> rel T (fun y => h y z) (hd z)) ->
  rel (LTg T) (fun y => mapM (h y) l) (mapM hd l).
Proof.
  revert r. induction l as [|z l IH]; intros r Hx H; cbn [mapM] in *.
  - apply (rel_ok (LTg T) (fun _ => [])). apply LT_nil.
  - eapply rel_bind; [exact Hx|intros a Ha; apply (H z a); [now left|exact Ha]|].
    intros f d _ Hf Hr. cbn beta in *.
    eapply rel_bind; [exact Hr|intros a Ha; apply (IH a Ha); intros; eapply H; [now right|eassumption]|].
    intros fl dl _ HL _. cbn beta. apply (rel_ok (LTg T) (fun y => f y :: fl y)). now apply LT_cons.
Qed.

Lemma rel_components x P D r : get_component_model_params (P x) = Ok r -> rt x P D ->
  rel (LTg (rt x)) (fun y => get_component_model_params (P y)) (get_component_model_params D).
Proof.
  intros Hx HP. unfold get_component_model_params in *. change (@COMPONENTS) with (@COMPONENTS) in *.
  apply (rel_mapM x (rt x) (fun y c => select (c_names c) (P y)) _ _ r Hx).
  intros c a _ Ha. now apply (rel_select x P D _ a).
Qed.

(** ** Interpolation *)

Lemma near_count x fl dl f a : LT x fl dl -> tracks f x a -> ~ In (f x) (fl x) ->
  locally x (fun y => searchsorted_right (fl y) (f y) = searchsorted_right dl a).
Proof.
  intros (L & E & F) Ha Hn. rewrite E in Hn.
  assert (G : locally x (fun y => searchsorted_right (map (fun f => f y) L) (f y) = searchsorted_right dl a)).
  { clear E. unfold searchsorted_right. induction F as [|g d L D H F IH]; [now apply filter_forall|].
    cbn [map filter] in *.
    assert (H1 := near_leb x g f d a H Ha ltac:(intros Q; apply Hn; now left)).
    specialize (IH ltac:(intros Q; apply Hn; now right)).
    generalize (filter_and _ _ H1 IH). apply filter_imp. intros y [Q1 Q2].
    rewrite Q1. destruct (nleb d a); cbn [length]; auto. }
  revert G. apply filter_imp. intros y. now rewrite E.
Qed.

Lemma dval_nabs (d : Dual R) : dval (nabs d) = Rabs (dval d).
Proof.
  unfold nabs, jwhere. cbn. unfold dltb; cbn. unfold Rltb, Rabs.
  destruct Rlt_dec, Rcase_abs; cbn; lra.
Qed.
Lemma nabs_R (r : R) : nabs r = Rabs r.
Proof. unfold nabs, jwhere. cbn. unfold Rltb, Rabs. destruct Rlt_dec, Rcase_abs; lra. Qed.

Lemma near_dx0 x f d : tracks f x d -> / 2 ^ 46 < f x ->
  locally x (fun y => nleb (nabs (f y)) INTERP_EPS = nleb (nabs d) INTERP_EPS).
Proof.
  intros H Hd.
  assert (Hp : 0 < / 2 ^ 46) by (apply Rinv_0_lt_compat, pow_lt; lra).
  pose proof (near_lt x (fun _ => / 2 ^ 46) f (continuous_const _ _) (tracks_cont _ _ _ H) Hd) as HL.
  revert HL. apply filter_imp. intros y Hy. rewrite nabs_R. unfold INTERP_EPS. cbn [nleb nconst Num_R Num_Dual]. unfold dleb.
  rewrite dval_nabs, (tracks_val _ _ _ H). change (dval (dconst (/ 2 ^ 46))) with (/ 2 ^ 46). cbn [nleb Num_R].
  rewrite !Rabs_right by lra.
  rewrite (proj2 (Rleb_false (f y) (/ 2 ^ 46))) by lra. now rewrite (proj2 (Rleb_false (f x) (/ 2 ^ 46))) by lra.
Qed.

(** The bracketing interval is settled unless the argument is an entry of the
    table; consecutive entries are further apart than jax's threshold. *)
Lemma t_interp x fx ax xs dxs fs dfs :
  tracks fx x ax -> LT x xs dxs -> LT x fs dfs -> (2 <= length dxs)%nat ->
  ~ In (fx x) (xs x) ->
  (forall i, (S i < length dxs)%nat -> / 2 ^ 46 < nth (S i) (xs x) 0 - nth i (xs x) 0) ->
  tracks (fun y => interp (fx y) (xs y) (fs y)) x (interp ax dxs dfs).
Proof.
  intros Hx HX HF Hlen Hn Hgap.
  pose proof (near_count x xs dxs fx ax HX Hx Hn) as HC.
  pose proof (LT_length _ _ _ HX) as EX. pose proof (LT_length _ _ _ HF) as EF.
  set (c := searchsorted_right dxs ax) in HC.
  set (i := Nat.min (Nat.max c 1) (length dxs - 1)).
  assert (Hi : (1 <= i < length dxs)%nat) by (unfold i; lia).
  pose proof (fun k => LT_nth x xs dxs k HX) as NX. pose proof (fun k => LT_nth x fs dfs k HF) as NF.
  assert (Nn : forall k, (k < length dxs)%nat -> fx x <> nth k (xs x) (nconst 0)).
  { intros k Hk Q. apply Hn. rewrite Q. apply nth_In. now rewrite EX. }
  pose (at_ := fun (l : list R) k => nth k l (nconst 0)).
  pose (body := fun y =>
    let df := nsub (at_ (fs y) i) (at_ (fs y) (i - 1)%nat) in
    let dx := nsub (at_ (xs y) i) (at_ (xs y) (i - 1)%nat) in
    let delta := nsub (fx y) (at_ (xs y) (i - 1)%nat) in
    let dx0 := nleb (nabs dx) INTERP_EPS in
    let f := jwhere dx0 (at_ (fs y) (i - 1)%nat)
               (nadd (at_ (fs y) (i - 1)%nat) (nmul (ndiv delta (jwhere dx0 (nconst 1) dx)) df)) in
    let f := jwhere (nltb (fx y) (at_ (xs y) 0%nat)) (at_ (fs y) 0%nat) f in
    jwhere (nltb (at_ (xs y) (length dxs - 1)%nat) (fx y)) (at_ (fs y) (length dfs - 1)%nat) f).
  apply tracks_loc with body.
  - revert HC. apply filter_imp. intros y Hy. unfold body, interp. rewrite Hy, EX, EF. reflexivity.
  - unfold body, interp, at_. fold c. fold i. cbv zeta.
    assert (HD : tracks (fun y => nsub (nth i (xs y) (nconst 0)) (nth (i - 1) (xs y) (nconst 0))) x
      (nsub (nth i dxs (nconst 0)) (nth (i - 1) dxs (nconst 0)))).
    { apply (t_sub x (fun y => nth i (xs y) (nconst 0)) (fun y => nth (i - 1) (xs y) (nconst 0))); auto. }
    assert (Hg : / 2 ^ 46 < nsub (nth i (xs x) (nconst 0)) (nth (i - 1) (xs x) (nconst 0))).
    { specialize (Hgap (i - 1)%nat ltac:(lia)). replace (S (i - 1)) with i in Hgap by lia. exact Hgap. }
    pose proof (near_dx0 x _ _ HD Hg) as HD0.
    apply (t_where_lt x (fun y => nth (length dxs - 1) (xs y) (nconst 0)) fx); auto.
    2:{ intros Q. apply (Nn (length dxs - 1)%nat ltac:(lia)). now rewrite Q. }
    apply (t_where_lt x fx (fun y => nth 0 (xs y) (nconst 0))); auto.
    2:{ apply Nn. lia. }
    apply (t_where x (fun y => nleb (nabs (nsub (nth i (xs y) (nconst 0)) (nth (i - 1) (xs y) (nconst 0)))) INTERP_EPS));
      [exact HD0|apply NF|].
    apply (t_add x (fun y => nth (i - 1) (fs y) (nconst 0))); [apply NF|].
    apply (t_mul x (fun y => ndiv (nsub (fx y) (nth (i - 1) (xs y) (nconst 0)))
      (jwhere (nleb (nabs (nsub (nth i (xs y) (nconst 0)) (nth (i - 1) (xs y) (nconst 0)))) INTERP_EPS)
         (nconst 1) (nsub (nth i (xs y) (nconst 0)) (nth (i - 1) (xs y) (nconst 0)))))
      (fun y => nsub (nth i (fs y) (nconst 0)) (nth (i - 1) (fs y) (nconst 0)))).
    2:{ apply (t_sub x (fun y => nth i (fs y) (nconst 0)) (fun y => nth (i - 1) (fs y) (nconst 0))); apply NF. }
    apply (t_div x (fun y => nsub (fx y) (nth (i - 1) (xs y) (nconst 0)))
      (fun y => jwhere (nleb (nabs (nsub (nth i (xs y) (nconst 0)) (nth (i - 1) (xs y) (nconst 0)))) INTERP_EPS)
         (nconst 1) (nsub (nth i (xs y) (nconst 0)) (nth (i - 1) (xs y) (nconst 0))))).
    + apply (t_sub x fx (fun y => nth (i - 1) (xs y) (nconst 0))); auto.
    + apply (t_where x (fun y => nleb (nabs (nsub (nth i (xs y) (nconst 0)) (nth (i - 1) (xs y) (nconst 0)))) INTERP_EPS));
        [exact HD0|apply t_const|exact HD].
    + unfold jwhere. clear HD0; destruct (nleb _ _); [exact R1_neq_R0|].
      apply Rgt_not_eq, Rlt_gt. refine (Rlt_trans _ _ _ _ Hg). apply Rinv_0_lt_compat, pow_lt. lra.
Qed.

Lemma LT_linspace x flo fhi lo hi n : tracks flo x lo -> tracks fhi x hi ->
  LT x (fun y => linspace (flo y) (fhi y) n) (linspace lo hi n).
Proof.
  intros Hl Hh. unfold linspace.
  apply (LT_const_map (fun f d => tracks f x d)
    (fun y i => nadd (nmul (flo y) (nsub (nconst 1) (nconst (INR i / INR (n - 1))))) (nmul (fhi y) (nconst (INR i / INR (n - 1)))))).
  intros i _.
  apply (t_add x (fun y => nmul (flo y) _) (fun y => nmul (fhi y) _)).
  - apply (t_mul x flo (fun _ => _)); [exact Hl|]. apply (t_sub x (fun _ => _) (fun _ => _)); apply t_const.
  - apply (t_mul x fhi (fun _ => _)); [exact Hh|apply t_const].
Qed.
