(** Lines, parsing and collation. *)

From Coq Require Import Reals Lra Lia List ZArith Bool Ascii String.
From Verif Require Import Model_Num RealAux Model_Base Model_Kernels Model_Adam Model_Fitter
  Model_Outline Spec_Kernels Spec_Fitter Spec_Outline Proofs_Fitter2 Proofs_Outline.
Import ListNotations.
Local Open Scope R_scope.

(** The eight fields of a line. *)
Definition out_fields (fr : FitResult) : list str :=
  map format_5e [logm0 (p_best fr); logtc (p_best fr); early_index (p_best fr);
                 late_index (p_best fr); t_peak (p_best fr); loss_best fr]
  ++ [str_of_int (Z.of_nat (compute_non_trivial_npts (log_mah_target (loss_data fr))));
      str_of_int (code_used fr)].

Lemma out_fields_field fr : Forall field (out_fields fr).
Proof.
  unfold out_fields. cbn [map app].
  repeat (apply Forall_cons; [first [apply format_field|apply str_of_int_field]|]). constructor.
Qed.

Lemma outline_none fr : get_outline fr None = join (out_fields fr) ++ [ascii_of_nat 10].
Proof. reflexivity. Qed.

Lemma outline_some fr i : get_outline fr (Some i) = join (str_of_int i :: out_fields fr) ++ [ascii_of_nat 10].
Proof. reflexivity. Qed.

Lemma split_none fr : split (strip (get_outline fr None)) = out_fields fr.
Proof. rewrite outline_none. apply split_line, out_fields_field. Qed.

Lemma split_some fr i : split (strip (get_outline fr (Some i))) = str_of_int i :: out_fields fr.
Proof.
  rewrite outline_some. apply split_line. constructor; [apply str_of_int_field|apply out_fields_field].
Qed.

Lemma join_line l : l <> [] -> line_of l (join l ++ [ascii_of_nat 10]).
Proof.
  induction l as [|w l IH]; intros H; [contradiction|]. destruct l as [|w' l'].
  - apply line_one.
  - change (join (w :: w' :: l')) with (w ++ " "%char :: join (w' :: l')).
    rewrite <- app_assoc. apply line_more. apply IH. discriminate.
Qed.

Lemma outline_shape fr :
  exists l, Datatypes.length l = 8%nat /\ Forall field l /\ line_of l (get_outline fr None) /\
    forall i, exists w, field w /\ parse_int w = Ok i /\ line_of (w :: l) (get_outline fr (Some i)).
Proof.
  exists (out_fields fr). split; [reflexivity|]. split; [apply out_fields_field|].
  split; [rewrite outline_none; apply join_line; discriminate|].
  intros i. exists (str_of_int i). split; [apply str_of_int_field|]. split; [apply parse_int_str|].
  rewrite outline_some. apply join_line. discriminate.
Qed.

Lemma round_trip fr : exists d, parse_outline (get_outline fr None) = Ok d /\
  reads_back (logm0 (p_best fr)) (fd_logm0 d) /\ reads_back (logtc (p_best fr)) (fd_logtc d) /\
  reads_back (early_index (p_best fr)) (fd_early d) /\ reads_back (late_index (p_best fr)) (fd_late d) /\
  reads_back (t_peak (p_best fr)) (fd_t_peak d) /\ reads_back (loss_best fr) (fd_loss d) /\
  fd_npts d = Z.of_nat (compute_non_trivial_npts (log_mah_target (loss_data fr))) /\
  fd_algo d = code_used fr.
Proof.
  unfold parse_outline. rewrite split_none. unfold out_fields. cbn [map app firstn skipn].
  destruct (parse_format (logm0 (p_best fr))) as (a & Ea & Ra).
  destruct (parse_format (logtc (p_best fr))) as (b & Eb & Rb).
  destruct (parse_format (early_index (p_best fr))) as (c & Ec & Rc).
  destruct (parse_format (late_index (p_best fr))) as (d & Ed & Rd).
  destruct (parse_format (t_peak (p_best fr))) as (e & Ee & Re).
  destruct (parse_format (loss_best fr)) as (f & Ef & Rf).
  cbn [collect]. rewrite Ea, Eb, Ec, Ed, Ee, Ef, !parse_int_str. cbn [bind].
  eexists. split; [reflexivity|]. cbn. auto 10.
Qed.

Lemma halo_id_fails fr i : parse_outline (get_outline fr (Some i)) = Err ValueError.
Proof.
  unfold parse_outline. rewrite split_some. unfold out_fields. cbn [map app firstn skipn].
  assert (HI : exists x, parse_float (str_of_int i) = Ok x).
  { unfold parse_float. rewrite strip_plain by (apply field_plain, str_of_int_field).
    unfold str_of_int. destruct (Z.ltb_spec i 0).
    - destruct (digits_spec (- i)) as (A & B & C); [lia|]. cbn [take_sign].
      destruct (digits (- i)) as [|d ds]; [contradiction|]. inversion C; subst.
      destruct (digit_not_word d (map digit_char ds) H2) as (W1 & W2 & W3).
      cbn [map] in *. cbv zeta. rewrite W1, W2, W3. cbn [orb].
      change (digit_char d :: map digit_char ds) with (map digit_char (d :: ds)).
      rewrite <- (app_nil_r (map digit_char _)), take_digits_map by (auto; exact I).
      cbn. eexists. reflexivity.
    - destruct (digits_spec i) as (A & B & C); [lia|].
      rewrite <- (app_nil_r (map digit_char _)), sign_digits, app_nil_r by auto.
      destruct (digits i) as [|d ds]; [contradiction|]. inversion C; subst.
      destruct (digit_not_word d (map digit_char ds) H2) as (W1 & W2 & W3).
      cbn [map] in *. cbv zeta. rewrite W1, W2, W3. cbn [orb].
      change (digit_char d :: map digit_char ds) with (map digit_char (d :: ds)).
      rewrite <- (app_nil_r (map digit_char _)), take_digits_map by (auto; exact I).
      cbn. eexists. reflexivity. }
  destruct HI as (z & Ez).
  destruct (parse_format (logm0 (p_best fr))) as (a & Ea & _).
  destruct (parse_format (logtc (p_best fr))) as (b & Eb & _).
  destruct (parse_format (early_index (p_best fr))) as (c & Ec & _).
  destruct (parse_format (late_index (p_best fr))) as (d & Ed & _).
  destruct (parse_format (t_peak (p_best fr))) as (e & Ee & _).
  cbn [collect]. rewrite Ez, Ea, Eb, Ec, Ed, Ee, parse_int_format. reflexivity.
Qed.

Lemma reads_back_six r y : six_digit r -> reads_back (Fin r) y -> y = Fin r.
Proof. intros H (q & -> & Hq). f_equal. now apply nearest_exact. Qed.

Lemma six_99 : six_digit (-99).
Proof. exists (-99)%Z, 0%Z. split; [cbn; ring|lia]. Qed.

Lemma sentinel_line fr : sentinel fr -> exists n,
  count_below_last xlt (log_mah_target (loss_data fr)) n /\
  parse_outline (get_outline fr None)
  = Ok (mkFitData (Fin (-99)) (Fin (-99)) (Fin (-99)) (Fin (-99)) (Fin (-99)) (Fin (-99))
          (Z.of_nat n) (-1)).
Proof.
  intros (E1 & E2 & _ & E3). exists (compute_non_trivial_npts (log_mah_target (loss_data fr))).
  split; [apply npts_any|].
  destruct (round_trip fr) as (d & E & H1 & H2 & H3 & H4 & H5 & H6 & H7 & H8).
  rewrite E1 in *. rewrite E2, E3 in *. cbn [logm0 logtc early_index late_index t_peak] in *.
  apply (reads_back_six _ _ six_99) in H1, H2, H3, H4, H5, H6.
  rewrite E. f_equal. destruct d; cbn in *. congruence.
Qed.

(** ** Collation *)

Lemma collect_ok {A B} (f : A -> res B) l l' :
  collect (map f l) = Ok l' <-> Forall2 (fun a b => f a = Ok b) l l'.
Proof.
  revert l'. induction l as [|a l IH]; intros l'; cbn [map collect].
  - split; [intros [= <-]; constructor|]. intros H. inversion H. reflexivity.
  - split.
    + destruct (f a) as [b|] eqn:E; cbn [bind]; [|discriminate].
      destruct (collect (map f l)) as [r|] eqn:ER; cbn [bind]; [|discriminate].
      intros [= <-]. constructor; [exact E|]. now apply IH.
    + intros H. inversion H; subst. rewrite H2. cbn [bind].
      apply IH in H4. rewrite H4. reflexivity.
Qed.

Lemma collect_total {A B} (f : A -> res B) l : (forall a, In a l -> exists b, f a = Ok b) ->
  exists l', collect (map f l) = Ok l'.
Proof.
  induction l as [|a l IH]; intros H; cbn [map collect]; [eexists; reflexivity|].
  destruct (H a (or_introl eq_refl)) as (b & ->). cbn [bind].
  destruct IH as (r & ->); [intros; apply H; now right|]. eexists. reflexivity.
Qed.

Lemma collect_err {A B} (f : A -> res B) l e : (forall a e', f a = Err e' -> e' = e) ->
  (exists a, In a l /\ f a = Err e) -> collect (map f l) = Err e.
Proof.
  intros HE. induction l as [|a l IH]; intros (x & Hx & E); [contradiction|].
  cbn [map collect]. destruct (f a) as [b|e'] eqn:Ea; cbn [bind].
  - destruct Hx as [->|Hx]; [congruence|]. rewrite IH by eauto. reflexivity.
  - now rewrite (HE _ _ Ea).
Qed.

Lemma Forall2_map_l {A B C} (g : A -> C) (P : C -> B -> Prop) l l' :
  Forall2 P (map g l) l' <-> Forall2 (fun a b => P (g a) b) l l'.
Proof.
  split.
  - revert l'. induction l as [|a l IH]; intros l' H; inversion H; subst; constructor; auto.
  - induction 1; cbn; constructor; auto.
Qed.

Lemma float_col_ok t j : float_cells t j -> exists c, float_col t j = Ok c /\ float_dataset t j c.
Proof.
  intros H. unfold float_col, col. rewrite map_map.
  destruct (collect_total (fun r => parse_float (nth j r [])) (rows t) H) as (l & E).
  rewrite E. cbn [bind]. eexists. split; [reflexivity|]. exists l. split; [reflexivity|].
  now apply collect_ok in E.
Qed.

Lemma int_col_ok t j : int_cells t j -> exists c, int_col t j = Ok c /\ int_dataset t j c.
Proof.
  intros H. unfold int_col, col. rewrite map_map.
  destruct (collect_total (fun r => parse_int (nth j r [])) (rows t) H) as (l & E).
  rewrite E. cbn [bind]. eexists. split; [reflexivity|]. exists l. split; [reflexivity|].
  now apply collect_ok in E.
Qed.

Lemma parse_int_errs s e : parse_int s = Err e -> e = ValueError.
Proof.
  unfold parse_int. destruct (take_sign (strip s)) as [neg s'].
  destruct (take_digits s') as [[|d ds] [|c r]]; congruence.
Qed.

Lemma parse_exp_errs s e : parse_exp s = Err e -> e = ValueError.
Proof.
  unfold parse_exp. destruct s as [|c s]; [discriminate|].
  destruct (eqb_str _ _); [|congruence]. destruct (take_sign s) as [neg s'].
  destruct (take_digits s') as [[|d ds] [|c' r]]; congruence.
Qed.

Lemma parse_float_errs s e : parse_float s = Err e -> e = ValueError.
Proof.
  unfold parse_float. destruct (take_sign (strip s)) as [neg s']. cbv zeta.
  destruct (eqb_str _ _); [discriminate|]. destruct (_ || _)%bool; [discriminate|].
  destruct (take_digits s') as [ip s1].
  match goal with |- context [let (fp, s2) := ?m in _] => destruct m as [fp s2] end.
  destruct (ip ++ fp); [congruence|].
  destruct (parse_exp s2) eqn:E; cbn [bind]; [discriminate|].
  intros [= <-]. now apply parse_exp_errs in E.
Qed.

Lemma collect_errs {A B} (f : A -> res B) l e : (forall a e', f a = Err e' -> e' = ValueError) ->
  collect (map f l) = Err e -> e = ValueError.
Proof.
  intros HE. induction l as [|a l IH]; cbn [map collect]; [discriminate|].
  destruct (f a) eqn:E; cbn [bind].
  - destruct (collect (map f l)); cbn [bind]; [discriminate|]. intros [= <-]. now apply IH.
  - intros [= <-]. now apply HE in E.
Qed.

Lemma float_col_err t j e : float_col t j = Err e -> e = ValueError /\ ~ float_cells t j.
Proof.
  intros H. split.
  - revert H. unfold float_col. destruct (collect _) eqn:E; cbn [bind]; [discriminate|].
    intros [= <-]. eapply collect_errs; [|exact E]. apply parse_float_errs.
  - intros HC. destruct (float_col_ok t j HC) as (c & E & _). congruence.
Qed.

Lemma int_col_err t j e : int_col t j = Err e -> e = ValueError /\ ~ int_cells t j.
Proof.
  intros H. split.
  - revert H. unfold int_col. destruct (collect _) eqn:E; cbn [bind]; [discriminate|].
    intros [= <-]. eapply collect_errs; [|exact E]. apply parse_int_errs.
  - intros HC. destruct (int_col_ok t j HC) as (c & E & _). congruence.
Qed.

Lemma eqb_str_refl s : eqb_str s s = true.
Proof. unfold eqb_str. destruct (list_eq_dec ascii_dec s s); congruence. Qed.

Lemma write_spec fs name h : write_file fs name h name = Some h /\
  forall n, n <> name -> write_file fs name h n = fs n.
Proof.
  unfold write_file. split; [now rewrite eqb_str_refl|]. intros n Hn. unfold eqb_str.
  destruct (list_eq_dec ascii_dec n name); [contradiction|reflexivity].
Qed.

Ltac take_col :=
  match goal with
  | H : float_cells ?t ?j |- context [float_col ?t ?j] =>
      let c := fresh "c" in let E := fresh "E" in let D := fresh "D" in
      destruct (float_col_ok t j H) as (c & E & D); rewrite E; cbn [bind]; clear H E
  | H : int_cells ?t ?j |- context [int_col ?t ?j] =>
      let c := fresh "c" in let E := fresh "E" in let D := fresh "D" in
      destruct (int_col_ok t j H) as (c & E & D); rewrite E; cbn [bind]; clear H E
  end.

Lemma collate_8 fs out t : ncols t = 8%nat ->
  (forall j, (j < 6)%nat -> float_cells t j) -> (forall j, (6 <= j < 8)%nat -> int_cells t j) ->
  exists h, write_collated_data fs out t = (write_file fs out h, Ok tt) /\
    map fst h = split (strip (skipn 1 HEADER)) /\
    (forall j c, nth_error (map snd h) j = Some c -> (j < 6)%nat -> float_dataset t j c) /\
    (forall j c, nth_error (map snd h) j = Some c -> (6 <= j)%nat -> int_dataset t j c).
Proof.
  intros HN HF HI. unfold write_collated_data. rewrite HN. cbn [Nat.eqb].
  pose proof (HF 0%nat ltac:(lia)) as H0. pose proof (HF 1%nat ltac:(lia)) as H1.
  pose proof (HF 2%nat ltac:(lia)) as H2. pose proof (HF 3%nat ltac:(lia)) as H3.
  pose proof (HF 4%nat ltac:(lia)) as H4. pose proof (HF 5%nat ltac:(lia)) as H5.
  pose proof (HI 6%nat ltac:(lia)) as H6. pose proof (HI 7%nat ltac:(lia)) as H7.
  do 8 take_col. eexists. split; [reflexivity|]. split; [reflexivity|]. cbn [map snd].
  split; intros j x Hx Hj; do 8 (destruct j as [|j]; [try lia; injection Hx as <-; assumption|]);
    destruct j; discriminate.
Qed.

Lemma collate_9 fs out t : ncols t = 9%nat ->
  int_cells t 0 -> (forall j, (1 <= j < 7)%nat -> float_cells t j) ->
  (forall j, (7 <= j < 9)%nat -> int_cells t j) ->
  exists h, write_collated_data fs out t = (write_file fs out h, Ok tt) /\
    map fst h = split (strip (skipn 1 HEADER_HALO_ID)) /\
    (forall j c, nth_error (map snd h) j = Some c -> (1 <= j < 7)%nat -> float_dataset t j c) /\
    (forall j c, nth_error (map snd h) j = Some c -> (j = 0 \/ 7 <= j)%nat -> int_dataset t j c).
Proof.
  intros HN H0 HF HI. unfold write_collated_data. rewrite HN. cbn [Nat.eqb].
  pose proof (HF 1%nat ltac:(lia)) as H1.
  pose proof (HF 2%nat ltac:(lia)) as H2. pose proof (HF 3%nat ltac:(lia)) as H3.
  pose proof (HF 4%nat ltac:(lia)) as H4. pose proof (HF 5%nat ltac:(lia)) as H5.
  pose proof (HF 6%nat ltac:(lia)) as H6. pose proof (HI 7%nat ltac:(lia)) as H7.
  pose proof (HI 8%nat ltac:(lia)) as H8.
  do 9 take_col. eexists. split; [reflexivity|]. split; [reflexivity|]. cbn [map snd].
  split; intros j x Hx Hj; do 9 (destruct j as [|j]; [try lia; injection Hx as <-; assumption|]);
    destruct j; discriminate.
Qed.

(** Anything else leaves the file system untouched. *)
Lemma collate_other fs out t fs' r : write_collated_data fs out t = (fs', r) ->
  (ncols t <> 8%nat -> ncols t <> 9%nat -> fs' = fs /\ r = Ok tt) /\
  (forall e, r = Err e -> fs' = fs /\ e = ValueError).
Proof.
  unfold write_collated_data.
  destruct (Nat.eqb_spec (ncols t) 8) as [E8|E8]; [|destruct (Nat.eqb_spec (ncols t) 9) as [E9|E9]].
  3:{ intros [= <- <-]. split; [auto|discriminate]. }
  all: intros H; split; [congruence|intros e ->]; revert H.
  all: repeat match goal with
    | |- context [float_col ?t ?j] =>
        let E := fresh "E" in destruct (float_col t j) as [|e'] eqn:E; cbn [bind];
        [|intros [= <- <-]; apply float_col_err in E; destruct E; auto]
    | |- context [int_col ?t ?j] =>
        let E := fresh "E" in destruct (int_col t j) as [|e'] eqn:E; cbn [bind];
        [|intros [= <- <-]; apply int_col_err in E; destruct E; auto]
    end; discriminate.
Qed.

(** Collating the fields of written lines. *)
Lemma lines_cells frs :
  let t := mkTable 8 (map (fun fr => split (strip (get_outline fr None))) frs) in
  (forall j, (j < 6)%nat -> float_cells t j) /\ (forall j, (6 <= j < 8)%nat -> int_cells t j).
Proof.
  cbv zeta. split; intros j Hj r Hr; cbn [rows] in Hr; apply in_map_iff in Hr;
    destruct Hr as (fr & <- & _); rewrite split_none; unfold out_fields; cbn [map app].
  - do 6 (destruct j as [|j]; [cbn [nth]; match goal with |- exists x, parse_float (format_5e ?v) = _ =>
      destruct (parse_format v) as (y & E & _); eauto end|]). lia.
  - do 6 (destruct j as [|j]; [lia|]). do 2 (destruct j as [|j]; [cbn [nth]; rewrite parse_int_str; eauto|]).
    lia.
Qed.

Lemma Forall2_impl_in {A B} (P Q : A -> B -> Prop) l l' :
  (forall a b, P a b -> Q a b) -> Forall2 P l l' -> Forall2 Q l l'.
Proof. intros H. induction 1; constructor; auto. Qed.

Lemma line_floats frs j c (get : FitResult -> xr) :
  (forall fr, nth j (out_fields fr) [] = format_5e (get fr)) ->
  float_dataset (mkTable 8 (map (fun fr => split (strip (get_outline fr None))) frs)) j c ->
  exists l, c = FloatCol l /\ Forall2 (fun fr x => reads_back (get fr) x) frs l.
Proof.
  intros HG (l & -> & H). exists l. split; [reflexivity|]. cbn [rows] in H.
  apply Forall2_map_l in H. eapply Forall2_impl_in; [|exact H]. cbv beta. intros fr x E.
  rewrite split_none, HG in E. destruct (parse_format (get fr)) as (y & E' & HR). congruence.
Qed.

Lemma line_ints frs j c (get : FitResult -> Z) :
  (forall fr, nth j (out_fields fr) [] = str_of_int (get fr)) ->
  int_dataset (mkTable 8 (map (fun fr => split (strip (get_outline fr None))) frs)) j c ->
  c = IntCol (map get frs).
Proof.
  intros HG (l & -> & H). f_equal. cbn [rows] in H. apply Forall2_map_l in H.
  induction H as [|fr x frs l E _ IH]; [reflexivity|]. cbn [map]. f_equal; [|exact IH].
  rewrite split_none, HG, parse_int_str in E. congruence.
Qed.

(** The same for lines written with a halo id. *)
Lemma lines_cells_id (l : list (Z * FitResult)) :
  let t := mkTable 9 (map (fun p => split (strip (get_outline (snd p) (Some (fst p))))) l) in
  int_cells t 0 /\ (forall j, (1 <= j < 7)%nat -> float_cells t j) /\
  (forall j, (7 <= j < 9)%nat -> int_cells t j).
Proof.
  cbv zeta. refine (conj _ (conj _ _)); [intros r Hr|intros j Hj r Hr|intros j Hj r Hr];
    cbn [rows] in Hr; apply in_map_iff in Hr; destruct Hr as ((i & fr) & <- & _); cbn [fst snd];
    rewrite split_some; unfold out_fields; cbn [map app].
  - cbn [nth]. rewrite parse_int_str. eauto.
  - destruct j as [|j]; [lia|].
    do 6 (destruct j as [|j]; [cbn [nth]; match goal with |- exists x, parse_float (format_5e ?v) = _ =>
      destruct (parse_format v) as (y & E & _); eauto end|]). lia.
  - do 7 (destruct j as [|j]; [lia|]). do 2 (destruct j as [|j]; [cbn [nth]; rewrite parse_int_str; eauto|]).
    lia.
Qed.

Lemma line_floats_id (ps : list (Z * FitResult)) j c (get : FitResult -> xr) :
  (forall fr, nth j (out_fields fr) [] = format_5e (get fr)) ->
  float_dataset (mkTable 9 (map (fun p => split (strip (get_outline (snd p) (Some (fst p))))) ps)) (Datatypes.S j) c ->
  exists l, c = FloatCol l /\ Forall2 (fun p x => reads_back (get (snd p)) x) ps l.
Proof.
  intros HG (l & -> & H). exists l. split; [reflexivity|]. cbn [rows] in H.
  apply Forall2_map_l in H. eapply Forall2_impl_in; [|exact H]. cbv beta. intros (i & fr) x E.
  cbn [fst snd] in *. rewrite split_some in E. cbn [nth] in E. rewrite HG in E.
  destruct (parse_format (get fr)) as (y & E' & HR). congruence.
Qed.

Lemma line_ints_id (ps : list (Z * FitResult)) j c (get : Z * FitResult -> Z) :
  (forall p, nth j (str_of_int (fst p) :: out_fields (snd p)) [] = str_of_int (get p)) ->
  int_dataset (mkTable 9 (map (fun p => split (strip (get_outline (snd p) (Some (fst p))))) ps)) j c ->
  c = IntCol (map get ps).
Proof.
  intros HG (l & -> & H). f_equal. cbn [rows] in H. apply Forall2_map_l in H.
  induction H as [|p x ps l E _ IH]; [reflexivity|]. cbn [map]. f_equal; [|exact IH].
  rewrite split_some, HG, parse_int_str in E. congruence.
Qed.

Lemma hdf_tail {X Y} (h : list (X * Y)) n : Datatypes.length (map fst h) = n ->
  Datatypes.length (map snd h) = n.
Proof. now rewrite !map_length. Qed.

Lemma sci_exact m e : (100000 <= m < 1000000)%Z ->
  sci_digits (IZR m * powerRZ 10 (e - 5)) = (m, e).
Proof.
  intros Hm. set (x := IZR m * powerRZ 10 (e - 5)).
  pose proof (p10_pos (e - 5)) as Hp.
  assert (Hm1 : 100000 <= IZR m) by (apply IZR_le; lia).
  assert (Hm2 : IZR m < 1000000) by (apply IZR_lt; lia).
  assert (Hx : 0 < x) by (unfold x; nra).
  assert (E5 : powerRZ 10 e = 100000 * powerRZ 10 (e - 5)).
  { rewrite <- p10_5, <- p10_add. f_equal. lia. }
  assert (HE : Int_part (log10 x) = e).
  { pose proof (Int_part_bounds (log10 x)) as HB.
    assert (L1 : IZR e <= log10 x).
    { apply log10_ge_pow10. rewrite <- p10_pow10, E5. unfold x. nra. }
    assert (L2 : log10 x < IZR (e + 1)).
    { apply log10_lt_pow10; [exact Hx|]. rewrite <- p10_pow10, p10_add, E5. unfold x.
      change (powerRZ 10 1) with (10 * 1). nra. }
    rewrite plus_IZR in L2.
    assert (A : IZR (Int_part (log10 x)) < IZR (e + 1)) by (rewrite plus_IZR; lra).
    assert (B : IZR e < IZR (Int_part (log10 x) + 1)) by (rewrite plus_IZR; lra).
    apply lt_IZR in A, B. lia. }
  unfold sci_digits. rewrite HE.
  assert (HR : round_half_even (x / powerRZ 10 (e - 5)) = m).
  { replace (x / powerRZ 10 (e - 5)) with (IZR m) by (unfold x; field; lra).
    pose proof (round_best (IZR m) m) as H. rewrite Rminus_diag_eq with (r1 := IZR m) (r2 := IZR m) in H by reflexivity.
    rewrite Rabs_R0 in H. pose proof (Rabs_pos (IZR m - IZR (round_half_even (IZR m)))).
    assert (Z0 : Rabs (IZR m - IZR (round_half_even (IZR m))) = 0) by lra.
    destruct (Req_dec (IZR m - IZR (round_half_even (IZR m))) 0) as [E|E].
    - apply eq_IZR. lra.
    - apply Rabs_no_R0 in E. contradiction. }
  rewrite HR. rewrite (proj2 (Z.eqb_neq m 1000000)) by lia. reflexivity.
Qed.

Lemma sci_99 : format_5e (Fin (-99)) = lit "-9.90000e+01".
Proof.
  cbn [format_5e]. destruct (Rlt_dec (-99) 0); [|lra].
  replace (- -99) with (IZR 990000 * powerRZ 10 (1 - 5)) by
    (change (powerRZ 10 (1 - 5)) with (/ (10 * (10 * (10 * (10 * 1))))); field).
  rewrite sci_exact by lia. reflexivity.
Qed.
