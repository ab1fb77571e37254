(** The fitting loss and its gradient. *)

From Coq Require Import Reals Lra Lia List Arith Bool Permutation.
From Coquelicot Require Import Coquelicot.
From Verif Require Import Model_Num RealAux Model_Base Model_Kernels Model_Utils Model_Adam
  Model_Fitter Spec_Kernels Spec_Utils Spec_Fitter Proofs_Kernels Proofs_XKernels Proofs_AD Proofs_XAD
  Proofs_Adam Proofs_Fitter.
Import ListNotations.
Local Open Scope R_scope.

Lemma combine_map_l {A B C} (f : A -> B) (l : list A) (y : list C) :
  combine (map f l) y = map (fun p => (f (fst p), snd p)) (combine l y).
Proof. revert y. induction l as [|a l IH]; intros [|b y]; cbn; auto. now rewrite IH. Qed.

Lemma combine_map_r {A B C} (f : A -> B) (y : list C) (l : list A) :
  combine y (map f l) = map (fun p => (fst p, f (snd p))) (combine y l).
Proof. revert l. induction y as [|a y IH]; intros [|b l]; cbn; auto. now rewrite IH. Qed.

Definition sqres {A} {N : Num A} (u : DiffmahUParams A) (l : A) (ty : A * A) : A :=
  let d := nsub (log_mah_kern_u_params u (fst ty) l) (snd ty) in nmul d d.

Lemma loss_eq {A} {N : Num A} (v : Varied A) ts ys utp l :
  log_mah_loss_uparams v ts ys utp l =
  ndiv (nsum (map (sqres (all_uparams v utp) l) (combine ts ys))) (nconst (INR (length (combine ts ys)))).
Proof.
  unfold log_mah_loss_uparams, mse. cbv zeta.
  rewrite combine_map_l, !map_map, map_length. reflexivity.
Qed.

(** ** Real loss *)

Lemma nsum_R (l : list R) : nsum l = Rsum l.
Proof. induction l as [|a l IH]; [reflexivity|]. cbn. now rewrite IH. Qed.

Definition residual (v : Varied R) utp l (ty : R * R) : R :=
  logmh_at_t_obs (get_bounded_mah_params (all_uparams v utp)) (fst ty) l - snd ty.

Lemma loss_R (v : Varied R) ts ys utp l :
  log_mah_loss_uparams v ts ys utp l
  = Rsum (map (fun ty => residual v utp l ty * residual v utp l ty) (combine ts ys))
    / INR (length (combine ts ys)).
Proof. rewrite loss_eq, nsum_R. reflexivity. Qed.

Lemma Rsum_sq_nonneg {A} (f : A -> R) l : 0 <= Rsum (map (fun x => f x * f x) l).
Proof. induction l as [|a l IH]; cbn; [lra|]. unfold Rsum in *. nra. Qed.

Lemma Rsum_sq_zero {A} (f : A -> R) l :
  Rsum (map (fun x => f x * f x) l) = 0 <-> forall x, In x l -> f x = 0.
Proof.
  induction l as [|a l IH]; cbn.
  - split; [intros _ x []|reflexivity].
  - pose proof (Rsum_sq_nonneg f l) as H. unfold Rsum in *. split.
    + intros E. assert (f a * f a = 0 /\ fold_right Rplus 0 (map (fun x => f x * f x) l) = 0) as [E1 E2] by nra.
      intros x [<-|Hx]; [nra|]. now apply IH.
    + intros E. rewrite (E a) by auto. rewrite (proj2 IH); [lra|]. auto.
Qed.

Lemma combine_nonempty {A B} (a : list A) (b : list B) : length a = length b -> a <> [] ->
  0 < INR (length (combine a b)).
Proof.
  intros H Ha. apply lt_0_INR. rewrite combine_length. destruct a; [contradiction|].
  destruct b; [discriminate|]. cbn. lia.
Qed.

Lemma loss_nonneg (v : Varied R) ts ys utp l : length ts = length ys -> ts <> [] ->
  0 <= log_mah_loss_uparams v ts ys utp l.
Proof.
  intros HL Hn. rewrite loss_R. pose proof (combine_nonempty ts ys HL Hn).
  apply Rmult_le_pos; [apply Rsum_sq_nonneg|]. left. now apply Rinv_0_lt_compat.
Qed.

Lemma loss_zero_iff (v : Varied R) ts ys utp l : length ts = length ys -> ts <> [] ->
  (log_mah_loss_uparams v ts ys utp l = 0 <->
   forall t y, In (t, y) (combine ts ys) ->
     logmh_at_t_obs (get_bounded_mah_params (all_uparams v utp)) t l = y).
Proof.
  intros HL Hn. rewrite loss_R. pose proof (combine_nonempty ts ys HL Hn) as HP. split.
  - intros E. assert (E' : Rsum (map (fun ty => residual v utp l ty * residual v utp l ty) (combine ts ys)) = 0).
    { unfold Rdiv in E. apply Rmult_integral in E. destruct E as [E|E]; [exact E|].
      exfalso. apply Rinv_neq_0_compat in E; lra. }
    rewrite Rsum_sq_zero in E'. intros t y Hin. specialize (E' _ Hin). unfold residual in E'.
    cbn [fst snd] in E'. lra.
  - intros H. rewrite (proj2 (Rsum_sq_zero _ _)); [lra|].
    intros [t y] Hin. unfold residual. cbn [fst snd]. rewrite (H t y Hin). lra.
Qed.

Lemma Rsum_perm l l' : Permutation l l' -> Rsum l = Rsum l'.
Proof. induction 1; unfold Rsum in *; cbn; lra. Qed.

Lemma loss_perm (v : Varied R) ts ys ts' ys' utp l :
  Permutation (combine ts ys) (combine ts' ys') ->
  log_mah_loss_uparams v ts ys utp l = log_mah_loss_uparams v ts' ys' utp l.
Proof.
  intros H. rewrite !loss_R. rewrite (Permutation_length H). f_equal.
  apply Rsum_perm. now apply Permutation_map.
Qed.

(** ** Gradient over the reals *)

Lemma tracks_ext f g x d : (forall y, f y = g y) -> tracks f x d -> tracks g x d.
Proof.
  intros E [H1 H2]. split; [rewrite H1; apply E|].
  apply (is_derive_ext f); auto.
Qed.

Lemma tracks_nsum {B} (F : B -> R -> R) (D : B -> Dual R) x l :
  (forall b, In b l -> tracks (F b) x (D b)) ->
  tracks (fun y => nsum (map (fun b => F b y) l)) x (nsum (map D l)).
Proof.
  induction l as [|b l IH]; intros H.
  - apply (tracks_const 0).
  - cbn [map nsum]. apply (tracks_add (F b) (fun y => nsum (map (fun b => F b y) l))).
    + apply H. cbn; auto.
    + apply IH. intros; apply H; cbn; auto.
Qed.

(** The straight line through [v] in direction [d]. *)
Definition vline (v d : Varied R) (h : R) : Varied R :=
  mkVaried (v_logm0 v + h * v_logm0 d) (v_logtc v + h * v_logtc d)
    (v_early v + h * v_early d) (v_late v + h * v_late d).

Definition vseed (v d : Varied R) : Varied (Dual R) :=
  mkVaried (mkDual (v_logm0 v) (v_logm0 d)) (mkDual (v_logtc v) (v_logtc d))
    (mkDual (v_early v) (v_early d)) (mkDual (v_late v) (v_late d)).

Lemma tracks_loss v d ts ys utp l : (forall t, In t ts -> 0 < t) -> ts <> [] -> length ts = length ys ->
  tracks (fun h => log_mah_loss_uparams (vline v d h) ts ys utp l) 0
    (log_mah_loss_uparams (vseed v d) (map dlift ts) (map dlift ys) (dlift utp) (dlift l)).
Proof.
  intros Hpos Hne HL.
  set (u := all_uparams v utp). set (w := all_uparams d 0).
  assert (HU : forall h, all_uparams (vline v d h) utp = uline u w h).
  { intros h. unfold uline, u, w, all_uparams, vline. cbn. f_equal. ring. }
  apply (tracks_ext (fun h => ndiv (nsum (map (fun ty => sqres (uline u w h) l ty) (combine ts ys)))
                                (INR (length (combine ts ys))))).
  { intros h. rewrite loss_eq, HU. reflexivity. }
  rewrite loss_eq. rewrite combine_map_l, combine_map_r, !map_map, !map_length.
  cbn [fst snd].
  apply tracks_div.
  - apply (tracks_nsum (fun ty h => sqres (uline u w h) l ty)
             (fun ty => sqres (all_uparams (vseed v d) (dlift utp)) (dlift l)
                          (dlift (fst ty), dlift (snd ty)))).
    intros [t y] Hin. unfold sqres. cbn [fst snd].
    assert (HT : tracks (fun h => log_mah_kern_u_params (uline u w h) t l - y) 0
              (nsub (log_mah_kern_u_params (all_uparams (vseed v d) (dlift utp)) (dlift t) (dlift l))
                 (dlift y))).
    { apply (tracks_sub (fun h => log_mah_kern_u_params (uline u w h) t l) (fun _ => y)).
      - assert (Ht : 0 < t) by (apply Hpos; eapply in_combine_l; eauto).
        destruct (ad_u_params_fixed u w t l Ht eq_refl) as [A B].
        assert (ES : all_uparams (vseed v d) (dlift utp) = useed u w).
        { unfold all_uparams, vseed, useed, u, w, dlift. reflexivity. }
        rewrite ES. split; [rewrite uline_0; exact A | exact B].
      - apply tracks_lift. }
    apply (tracks_mul _ _ _ _ _ HT HT).
  - apply tracks_const.
  - pose proof (combine_nonempty ts ys HL Hne). lra.
Qed.

Definition dir4 (i : nat) : Varied R :=
  mkVaried (if Nat.eqb i 0 then 1 else 0) (if Nat.eqb i 1 then 1 else 0)
    (if Nat.eqb i 2 then 1 else 0) (if Nat.eqb i 3 then 1 else 0).

Lemma grads_R v ts ys utp l :
  loss_and_grads_kern v ts ys utp l =
  let g i := dder (log_mah_loss_uparams (vseed v (dir4 i)) (map dlift ts) (map dlift ys)
                     (dlift utp) (dlift l)) in
  (log_mah_loss_uparams v ts ys utp l, mkVaried (g 0%nat) (g 1%nat) (g 2%nat) (g 3%nat)).
Proof. reflexivity. Qed.

(** ** Finiteness over the extended reals *)

Lemma dfin_div a b : dval b <> 0 -> ndiv (dfin a) (dfin b) = dfin (ndiv a b).
Proof.
  intros H. unfold dfin. cbn. unfold ddiv. cbn.
  rewrite (Reqb_f _ _ H). rewrite (Reqb_f (dval b * dval b) 0) by nra.
  reflexivity.
Qed.

Lemma dfin_nsum l : nsum (map dfin l) = dfin (nsum l).
Proof.
  induction l as [|a l IH]; [apply dfin_const|]. cbn [map nsum]. rewrite IH. apply dfin_add.
Qed.

Lemma x_nsum l : nsum (map Fin l) = Fin (nsum l).
Proof. induction l as [|a l IH]; [reflexivity|]. cbn [map nsum]. rewrite IH. reflexivity. Qed.

Lemma x_log_mah_u (u : DiffmahUParams R) t l : 0 < t ->
  log_mah_kern_u_params (inject_u u) (Fin t) (Fin l) = Fin (log_mah_kern_u_params u t l).
Proof.
  intros Ht. unfold log_mah_kern_u_params. rewrite x_bounded_fin.
  apply (x_log_mah_fin (get_bounded_mah_params u) t l Ht).
  pose proof (bounded_legal u) as (_ & _ & _ & _ & H). lra.
Qed.

Lemma x_loss (v : Varied R) ts ys utp l : (forall t, In t ts -> 0 < t) -> ts <> [] ->
  length ts = length ys ->
  log_mah_loss_uparams (inject_v v) (map Fin ts) (map Fin ys) (Fin utp) (Fin l)
  = Fin (log_mah_loss_uparams v ts ys utp l).
Proof.
  intros Hpos Hne HL. rewrite !loss_eq, combine_fin, map_map, map_length.
  pose proof (combine_nonempty ts ys HL Hne) as HP.
  rewrite (map_ext_in _ (fun ty => Fin (sqres (all_uparams v utp) l ty))).
  - rewrite <- (map_map (sqres (all_uparams v utp) l) Fin), x_nsum. cbn.
    rewrite Reqb_f by lra. reflexivity.
  - intros [t y] Hin. unfold sqres. cbn [fst snd]. rewrite <- inject_u_all.
    rewrite x_log_mah_u; [reflexivity|]. apply Hpos. eapply in_combine_l; eauto.
Qed.

Lemma x_dloss (v d : Varied R) ts ys utp l : (forall t, In t ts -> 0 < t) -> ts <> [] ->
  length ts = length ys ->
  log_mah_loss_uparams
    (mkVaried (dfin (mkDual (v_logm0 v) (v_logm0 d))) (dfin (mkDual (v_logtc v) (v_logtc d)))
       (dfin (mkDual (v_early v) (v_early d))) (dfin (mkDual (v_late v) (v_late d))))
    (map dlift (map Fin ts)) (map dlift (map Fin ys)) (dlift (Fin utp)) (dlift (Fin l))
  = dfin (log_mah_loss_uparams (vseed v d) (map dlift ts) (map dlift ys) (dlift utp) (dlift l)).
Proof.
  intros Hpos Hne HL. rewrite !loss_eq. rewrite !combine_map_l, !combine_map_r, !map_map, !map_length.
  cbn [fst snd].
  pose proof (combine_nonempty ts ys HL Hne) as HP.
  match goal with |- ndiv (nsum (map ?f _)) _ = dfin (ndiv (nsum (map ?g _)) _) =>
    rewrite (map_ext_in f (fun ty => dfin (g ty))) end.
  - rewrite <- (map_map _ dfin), dfin_nsum, dfin_const. apply dfin_div. cbn. lra.
  - intros [t y] Hin. unfold sqres. cbn [fst snd].
    assert (Ht : 0 < t) by (apply Hpos; eapply in_combine_l; eauto).
    set (u := all_uparams v utp). set (w := all_uparams d 0).
    change (all_uparams _ (dlift (Fin utp))) with (dfin_uparams (useed u w)).
    change (all_uparams (vseed v d) (dlift utp)) with (useed u w).
    rewrite x_gradient_finite by exact Ht. rewrite dfin_lift, dfin_sub, dfin_mul. reflexivity.
Qed.

Lemma x_loss_and_grads (v : Varied R) ts ys utp l : (forall t, In t ts -> 0 < t) -> ts <> [] ->
  length ts = length ys ->
  loss_and_grads_kern (inject_v v) (map Fin ts) (map Fin ys) (Fin utp) (Fin l)
  = (Fin (fst (loss_and_grads_kern v ts ys utp l)), inject_v (snd (loss_and_grads_kern v ts ys utp l))).
Proof.
  intros Hpos Hne HL. unfold loss_and_grads_kern at 1. cbv zeta. rewrite x_loss by auto.
  cbn [fst snd]. f_equal. unfold inject_v at 1.
  cbn [nconst Num_xr v_logm0 v_logtc v_early v_late inject_v].
  pose proof (fun d => x_dloss v d ts ys utp l Hpos Hne HL) as HD.
  pose proof (HD (dir4 0)) as H0. pose proof (HD (dir4 1)) as H1.
  pose proof (HD (dir4 2)) as H2. pose proof (HD (dir4 3)) as H3.
  unfold dir4, dfin in H0, H1, H2, H3.
  cbn [v_logm0 v_logtc v_early v_late Nat.eqb dval dder] in H0, H1, H2, H3.
  rewrite H0, H1, H2, H3. reflexivity.
Qed.
