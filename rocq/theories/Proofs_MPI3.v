(** The text files of the ranks and their collation. *)

From Coq Require Import Reals Lra Lia List ZArith Bool Ascii String FunctionalExtensionality.
From Verif Require Import Model_Num Model_Base Model_Kernels Model_Adam Model_Fitter Model_Outline
  Model_Utils Model_Data Model_MPI Spec_Kernels Spec_Fitter Spec_Outline Spec_MPI Proofs_Fitter2 Proofs_Outline
  Proofs_Outline2 Proofs_Data Proofs_MPI Proofs_MPI2.
Import ListNotations.
Local Open Scope list_scope.

(** ** Characters of numbers *)

Definition safe (c : ascii) : Prop :=
  is_space c = false /\ c <> "#"%char /\ c <> "_"%char /\ c <> "/"%char.

Lemma safe_digit d : is_digit d -> safe (digit_char d).
Proof.
  intros H. unfold is_digit in H.
  assert (HC : (d = 0 \/ d = 1 \/ d = 2 \/ d = 3 \/ d = 4 \/ d = 5 \/ d = 6 \/ d = 7 \/ d = 8 \/ d = 9)%Z) by lia.
  repeat destruct HC as [HC|HC]; subst d; (split; [reflexivity|repeat split; discriminate]).
Qed.

Lemma safe_digits ds : Forall is_digit ds -> Forall safe (map digit_char ds).
Proof. intros H. apply Forall_map. eapply Forall_impl; [|exact H]. apply safe_digit. Qed.

Ltac safe_char := split; [reflexivity|repeat split; discriminate].

Lemma safe_int z : Forall safe (str_of_int z).
Proof.
  unfold str_of_int. destruct (Z.ltb_spec z 0).
  - destruct (digits_spec (- z)) as (_ & _ & H1); [lia|]. constructor; [safe_char|]. now apply safe_digits.
  - destruct (digits_spec z) as (_ & _ & H1); [lia|]. now apply safe_digits.
Qed.

Lemma safe_exp e : Forall safe (exp_field e).
Proof.
  unfold exp_field. constructor; [destruct (e <? 0)%Z; safe_char|].
  destruct (Z.ltb_spec (Z.abs e) 100).
  - destruct (fixed_spec 2 (Z.abs e)) as (_ & _ & H1); [cbn; lia|]. now apply safe_digits.
  - destruct (digits_spec (Z.abs e)) as (_ & _ & H1); [lia|]. now apply safe_digits.
Qed.

Lemma safe_sci m e : (0 <= m < 1000000)%Z -> Forall safe (sci_chars m e).
Proof.
  intros H. destruct (sci_chars_eq m e H) as (d0 & ds & _ & _ & _ & H1 & H2 & ->).
  apply Forall_app. split; [apply safe_digits; auto|]. constructor; [safe_char|].
  apply Forall_app. split; [now apply safe_digits|]. constructor; [safe_char|apply safe_exp].
Qed.

Lemma safe_format x : Forall safe (format_5e x).
Proof.
  destruct x as [r| | |]; try (repeat (constructor; [safe_char|]); constructor).
  unfold format_5e. destruct (Rlt_dec r 0); [|destruct (Rlt_dec 0 r)].
  - destruct (sci_spec' (- r)) as (m & e & -> & H & _); [lra|]. constructor; [safe_char|]. now apply safe_sci.
  - destruct (sci_spec' r) as (m & e & -> & H & _); [lra|]. now apply safe_sci.
  - apply safe_sci; lia.
Qed.

Lemma safe_fields fr : Forall (Forall safe) (out_fields fr).
Proof.
  unfold out_fields. cbn [map app].
  repeat (apply Forall_cons; [first [apply safe_format|apply safe_int]|]). constructor.
Qed.

(** ** Lines *)

Lemma split_on_cons c a b : ~ In c a -> split_on c (a ++ c :: b) = a :: split_on c b.
Proof.
  induction a as [|x a IH]; intros H; cbn [app split_on].
  - destruct (split_on c b) as [|w l] eqn:E; [destruct b as [|y b]; cbn in E; [discriminate|]; destruct (split_on c b); [discriminate|destruct (Ascii.eqb y c); discriminate]|].
    now rewrite Ascii.eqb_refl.
  - rewrite IH by (intros HH; apply H; now right).
    destruct (Ascii.eqb_spec x c) as [->|]; [exfalso; apply H; now left|reflexivity].
Qed.

Lemma split_on_none c a : ~ In c a -> split_on c a = [a].
Proof.
  induction a as [|x a IH]; intros H; [reflexivity|]. cbn [split_on].
  rewrite IH by (intros HH; apply H; now right).
  destruct (Ascii.eqb_spec x c) as [->|]; [exfalso; apply H; now left|reflexivity].
Qed.

(** No line breaks inside. *)
Definition one_line (s : str) : Prop := ~ In newline s /\ ~ In (ascii_of_nat 13) s.

Lemma one_line_map s : ~ In (ascii_of_nat 13) s -> map to_newline s = s.
Proof.
  induction s as [|c s IH]; intros H; [reflexivity|]. cbn [map]. rewrite IH by (intros HH; apply H; now right).
  unfold to_newline. destruct (Ascii.eqb_spec c (ascii_of_nat 13)) as [->|]; [exfalso; apply H; now left|reflexivity].
Qed.

Lemma lines_concat l : Forall one_line l -> lines (List.concat (map (fun b => b ++ [newline]) l)) = l ++ [[]].
Proof.
  unfold lines. induction 1 as [|b l [H1 H2] _ IH]; [reflexivity|]. cbn [map List.concat].
  rewrite !map_app, <- app_assoc. cbn [map app]. rewrite one_line_map by exact H2.
  change (to_newline newline) with newline. rewrite split_on_cons by exact H1. now rewrite IH.
Qed.

Lemma before_hash_id s : ~ In "#"%char s -> before_hash s = s.
Proof.
  induction s as [|c s IH]; intros H; [reflexivity|]. cbn [before_hash].
  destruct (Ascii.eqb_spec c "#") as [->|]; [exfalso; apply H; now left|]. rewrite IH; [reflexivity|].
  intros HH. apply H. now right.
Qed.

(** A row of a file: words without blanks and hash signs. *)
Definition word (s : str) : Prop := s <> [] /\ Forall safe s.

Lemma word_field s : word s -> field s.
Proof.
  intros [H1 H2]. split; [exact H1|]. intros c Hc. rewrite Forall_forall in H2. now apply H2.
Qed.

Lemma in_join c l : In c (join l) -> c = " "%char \/ exists s, In s l /\ In c s.
Proof.
  induction l as [|s l IH]; [intros []|]. destruct l as [|s' l].
  - cbn. intros H. right. exists s. auto.
  - change (join (s :: s' :: l)) with (s ++ " "%char :: join (s' :: l)). intros H. apply in_app_or in H as [H|[H|H]].
    + right. exists s. split; [now left|exact H].
    + now left.
    + destruct (IH H) as [E|(x & Hx & Hc)]; [now left|]. right. exists x. split; [now right|exact Hc].
Qed.

Lemma join_clean c l : Forall word l -> ~ safe c -> c <> " "%char -> ~ In c (join l).
Proof.
  intros H Hs Hc Hin. apply in_join in Hin as [E|(s & Hs' & Hcs)]; [contradiction|].
  rewrite Forall_forall in H. destruct (H s Hs') as [_ HF]. rewrite Forall_forall in HF. now apply Hs, HF.
Qed.

Lemma join_row l : Forall word l -> one_line (join l) /\ split (before_hash (join l)) = l.
Proof.
  intros H. split.
  - split; apply join_clean; try assumption; try discriminate; intros [E _]; discriminate.
  - rewrite before_hash_id.
    + apply split_join. eapply Forall_impl; [|exact H]. apply word_field.
    + apply join_clean; [exact H|intros (_ & E & _); now apply E|discriminate].
Qed.

(** The text of a file: a comment line and one line per row. *)
Definition row_text (r : list str) : str := join r ++ [newline].
Definition comment (hdr : str) : Prop := exists s, hdr = "#"%char :: s ++ [newline] /\ one_line s.

Definition as_array (w : nat) (rows : list (list str)) : sarr :=
  match rows with [] => A1 [] | [r] => A1 r | _ => A2 (mkTable w rows) end.

Lemma genfromtxt_rows w hdr rows : (2 <= w)%nat -> comment hdr ->
  Forall (fun r => List.length r = w /\ Forall word r) rows ->
  genfromtxt (hdr ++ List.concat (map row_text rows)) = Ok (as_array w rows).
Proof.
  intros Hw (s & -> & H1 & H2) HR. unfold genfromtxt.
  replace (("#"%char :: s ++ [newline]) ++ List.concat (map row_text rows))
    with (List.concat (map (fun b => b ++ [newline]) (("#"%char :: s) :: map join rows))).
  2:{ cbn [map List.concat]. rewrite map_map. reflexivity. }
  rewrite lines_concat.
  2:{ constructor.
      - split; intros [E|E]; try discriminate; contradiction.
      - apply Forall_map. eapply Forall_impl; [|exact HR]. intros r [_ Hr]. now apply join_row. }
  rewrite map_app, filter_app. cbn [map app filter before_hash split split_from]. rewrite app_nil_r.
  rewrite Ascii.eqb_refl. cbn [split split_from filter].
  rewrite map_map.
  assert (E : filter (fun r => match r with [] => false | _ => true end)
                (map (fun x => split (before_hash (join x))) rows) = rows).
  { clear - HR Hw. induction HR as [|r rows [Hr1 Hr2] _ IH]; [reflexivity|]. cbn [map filter].
    rewrite (proj2 (join_row r Hr2)). destruct r as [|x r]; [cbn in Hr1; lia|]. now rewrite IH. }
  change (split []) with (@nil str). cbn [filter]. rewrite E.
  destruct rows as [|r rs]; [reflexivity|]. inversion HR as [|r0 rs0 [Hr1 Hr2] HR']; subst.
  replace (forallb (fun r0 => Nat.eqb (List.length r0) (List.length r)) rs) with true.
  2:{ symmetry. apply forallb_forall. intros x Hx. rewrite Forall_forall in HR'. apply Nat.eqb_eq. now apply HR'. }
  unfold as_array. destruct rs as [|r' rs].
  - destruct r as [|x [|y r]]; [cbn in Hw; lia|cbn in Hw; lia|reflexivity].
  - destruct (Nat.eqb_spec (List.length r) 1) as [E1|_]; [lia|reflexivity].
Qed.

(** ** Concatenating the arrays of the ranks *)

Lemma concat_2d w rss : Forall (fun rs => (2 <= List.length rs)%nat) rss -> rss <> [] ->
  np_concatenate (map (as_array w) rss) = Ok (A2 (mkTable w (List.concat rss))).
Proof.
  intros H Hne. destruct H as [|rs rss Hrs H]; [contradiction|]. clear Hne. cbn [map].
  assert (HA : forall l, (2 <= List.length l)%nat -> as_array w l = A2 (mkTable w l)).
  { intros [|a [|b l]] HL; cbn in HL; try lia. reflexivity. }
  rewrite HA by exact Hrs. unfold np_concatenate. cbn [List.concat]. revert rs Hrs.
  induction H as [|rs' rss Hrs' _ IH]; intros rs Hrs; cbn [map fold_left List.concat].
  - now rewrite app_nil_r.
  - rewrite HA by exact Hrs'. cbn [bind concat2 ncols rows]. rewrite Nat.eqb_refl.
    rewrite IH by (rewrite app_length; lia). now rewrite app_assoc.
Qed.

Lemma fold_err l : forall e : exn, fold_left (fun r y => let* a := r in concat2 a y) l (Err e) = Err e.
Proof. induction l as [|y l IH]; intros e; [reflexivity|]. apply IH. Qed.

Lemma fold_concat_errs l : forall x e, fold_left (fun r y => let* a := r in concat2 a y) l (Ok x) = Err e -> e = ValueError.
Proof.
  induction l as [|y l IH]; intros x e E; cbn [fold_left bind] in E; [discriminate|].
  destruct (concat2 x y) as [a|e'] eqn:E'; [now apply IH in E|].
  rewrite fold_err in E. injection E as <-. destruct x as [|a|a], y as [|b|b]; cbn in E'; try congruence.
  destruct (Nat.eqb (ncols a) (ncols b)); congruence.
Qed.

Lemma fold_2d l : forall x t, fold_left (fun r y => let* a := r in concat2 a y) l (Ok x) = Ok (A2 t) ->
  Forall (fun y => exists t', y = A2 t') (x :: l).
Proof.
  induction l as [|y l IH]; intros x t E; cbn [fold_left bind] in E.
  - injection E as ->. constructor; [now exists t|constructor].
  - destruct (concat2 x y) as [a|e'] eqn:E'; [|rewrite fold_err in E; discriminate].
    apply IH in E. inversion E as [|? ? [t' ->] E2]; subst.
    destruct x as [|a|a], y as [|b|b]; cbn in E'; try discriminate.
    constructor; [now exists a|]. constructor; [now exists b|exact E2].
Qed.

(** One rank with fewer than two rows is enough to spoil the table. *)
Lemma concat_spoiled w rss : Exists (fun rs => (List.length rs <= 1)%nat) rss ->
  np_concatenate (map (as_array w) rss) = Err ValueError \/
  exists l, np_concatenate (map (as_array w) rss) = Ok (A1 l).
Proof.
  intros H.
  assert (HA : forall r l, np_concatenate (as_array w r :: l) =
                 fold_left (fun r y => let* a := r in concat2 a y) l (Ok (as_array w r))).
  { intros [|a [|b r]] l; reflexivity. }
  destruct rss as [|r rss]; [inversion H|]. cbn [map]. rewrite HA.
  destruct (fold_left _ _ _) as [[x|l|t]|e] eqn:E.
  - exfalso. assert (HG : forall l x s, (forall y, x <> A0 y) ->
      fold_left (fun r y => let* a := r in concat2 a y) l (Ok x) <> Ok (A0 s)).
    { induction l as [|y l IH]; intros x0 s Hx; cbn [fold_left bind].
      - intros E0. injection E0 as E0. now apply (Hx s).
      - destruct (concat2 x0 y) as [a|e'] eqn:E'; [|rewrite fold_err; discriminate]. apply IH.
        destruct x0 as [|a0|a0], y as [|b0|b0]; cbn in E'; try discriminate; [injection E' as <-; discriminate|].
        destruct (Nat.eqb (ncols a0) (ncols b0)); [injection E' as <-; discriminate|discriminate]. }
    apply HG in E; [exact E|]. intros y. destruct r as [|a [|b r]]; discriminate.
  - right. now exists l.
  - exfalso. apply fold_2d in E. change (as_array w r :: map (as_array w) rss) with (map (as_array w) (r :: rss)) in E.
    rewrite Forall_map, Forall_forall in E. apply Exists_exists in H as (rs & Hin & HL).
    destruct (E rs Hin) as (t' & Et). destruct rs as [|a [|b rs]]; cbn in HL; try lia; discriminate.
  - left. apply fold_concat_errs in E. now subst e.
Qed.

(** ** File operations of one rank *)

Section Local.
  Context {A : Type}.
  Implicit Types (k : prog A) (f : tree).

  Lemma fset_twice f p a b : fset (fset f p a) p b = fset f p b.
  Proof. apply functional_extensionality. intros q. unfold fset. destruct (eqb_path q p); reflexivity. Qed.

  Lemma write_lines_local {H} p (line : H -> res str) halos : forall ss s0 f k,
    Forall2 (fun h s => line h = Ok s) halos ss -> f p = Some (Text s0) ->
    local (write_lines p line halos k) f k (fset f p (Some (Text (s0 ++ List.concat ss)))).
  Proof.
    induction halos as [|h halos IH]; intros ss s0 f k HF Hp; inversion HF as [|h0 s l0 ss' E HF']; subst.
    - cbn [write_lines List.concat]. rewrite app_nil_r.
      replace (fset f p (Some (Text s0))) with f; [constructor|].
      apply functional_extensionality. intros q. unfold fset. destruct (eqb_path q p) eqn:Eq; [|reflexivity].
      apply eqb_path_eq in Eq. subst q. exact Hp.
    - cbn [write_lines]. rewrite E. cbn [lift].
      eapply local_S; [cbn [disk_step]; rewrite Hp; reflexivity|].
      cbn [List.concat]. rewrite app_assoc.
      rewrite <- (fset_twice f p (Some (Text (s0 ++ s))) (Some (Text ((s0 ++ s) ++ List.concat ss')))). apply IH; [exact HF'|apply fset_same].
  Qed.

  Lemma write_rank_local {H} p hdr (line : H -> res str) halos ss f k :
    Forall2 (fun h s => line h = Ok s) halos ss ->
    local (write_rank_file p hdr line halos k) f k (fset f p (Some (Text (hdr ++ List.concat ss)))).
  Proof.
    intros HF. unfold write_rank_file.
    eapply local_S; [reflexivity|]. eapply local_S; [cbn [disk_step]; rewrite fset_same, fset_twice; reflexivity|].
    cbn [app]. rewrite <- (fset_twice f p (Some (Text hdr)) (Some (Text (hdr ++ List.concat ss)))). apply write_lines_local; [exact HF|apply fset_same].
  Qed.

  Lemma read_all_local fns : forall texts arrs coll (k : list sarr -> prog A) f,
    Forall2 (fun fn s => f fn = Some (Text s)) fns texts ->
    Forall2 (fun s a => genfromtxt s = Ok a) texts arrs ->
    local (read_all fns coll k) f (k (coll ++ arrs)) f.
  Proof.
    induction fns as [|fn fns IH]; intros texts arrs coll k f HF HG; inversion HF as [|fn0 s l0 texts' E HF']; subst;
      inversion HG as [|s0 a l1 arrs' E2 HG']; subst.
    - rewrite app_nil_r. constructor.
    - cbn [read_all]. eapply local_S; [reflexivity|]. rewrite E. eapply local_S; [reflexivity|]. rewrite E, E2. cbn [lift].
      replace (coll ++ a :: arrs') with ((coll ++ [a]) ++ arrs') by (now rewrite <- app_assoc).
      now apply (IH texts').
  Qed.

  Lemma put_all_local p h : forall h0 f k, f p = Some (H5 h0) ->
    local (put_all p h k) f k (fset f p (Some (H5 (h0 ++ h)))).
  Proof.
    induction h as [|[key c] h IH]; intros h0 f k Hp; cbn [put_all].
    - rewrite app_nil_r. replace (fset f p (Some (H5 h0))) with f; [constructor|].
      apply functional_extensionality. intros q. unfold fset. destruct (eqb_path q p) eqn:Eq; [|reflexivity].
      apply eqb_path_eq in Eq. subst q. exact Hp.
    - eapply local_S; [cbn [disk_step]; rewrite Hp; reflexivity|].
      replace (h0 ++ (key, c) :: h) with ((h0 ++ [(key, c)]) ++ h) by (now rewrite <- app_assoc).
      rewrite <- (fset_twice f p (Some (H5 (h0 ++ [(key, c)]))) (Some (H5 ((h0 ++ [(key, c)]) ++ h)))). apply IH, fset_same.
  Qed.

  Definition removed (d pre suf : str) f : tree :=
    fun q => if (eqb_str (fst q) d && glob pre suf (snd q))%bool then None else f q.

  Definition rm_prefix (bn : str) : str := join_on "_"%char (removelast (split_on "_"%char bn)) ++ lit "_".

  (** Rank 0 collates tables with at least two rows per rank. *)
  Lemma collate_local outdir (name : nat -> str) outbn n hdr w rss h fs' f k :
    (0 < n)%nat -> (2 <= w)%nat -> comment hdr -> List.length rss = n ->
    Forall (fun rs => (2 <= List.length rs)%nat /\ Forall (fun r => List.length r = w /\ Forall word r) rs) rss ->
    (forall i, (i < n)%nat -> f (outdir, name i) = Some (Text (hdr ++ List.concat (map row_text (nth i rss []))))) ->
    write_collated_data (fun _ => None) outbn (mkTable w (List.concat rss)) = (fs', Ok tt) -> fs' outbn = Some h ->
    local (collate outdir name outbn n k) f k
      (removed outdir (rm_prefix (name 0%nat)) (lit ".dat") (fset f (outdir, outbn) (Some (H5 h)))).
  Proof.
    intros Hn Hw Hh HL HR Hf HC HO. unfold collate.
    eapply local_trans.
    { apply (read_all_local _ (map (fun rs => hdr ++ List.concat (map row_text rs)) rss) (map (as_array w) rss)).
      - rewrite map_map. rewrite <- HL in *. clear - Hf.
        assert (G : forall m (l : list (list (list str))),
          (forall i, (i < List.length l)%nat -> f (outdir, name (m + i)%nat) = Some (Text (hdr ++ List.concat (map row_text (nth i l []))))) ->
          Forall2 (fun fn s => f fn = Some (Text s)) (map (fun x => (outdir, name x)) (seq m (List.length l)))
            (map (fun rs => hdr ++ List.concat (map row_text rs)) l)).
        { intros m l. revert m. induction l as [|rs l IH]; intros m H; cbn [List.length seq map]; [constructor|].
          constructor.
          - specialize (H 0%nat ltac:(cbn; lia)). rewrite Nat.add_0_r in H. exact H.
          - apply IH. intros i Hi. specialize (H (S i) ltac:(cbn; lia)). now rewrite Nat.add_succ_r in H. }
        now apply (G 0%nat).
      - clear - Hw Hh HR. induction HR as [|rs rss [_ HR] _ IH]; cbn [map]; constructor; [|exact IH].
        now apply genfromtxt_rows. }
    cbn [app]. rewrite concat_2d.
    2:{ eapply Forall_impl; [|exact HR]. intros rs [H _]. exact H. }
    2:{ intros ->. cbn in HL. lia. }
    cbn [lift]. unfold write_collated. cbn [snd]. rewrite HC, HO.
    eapply local_S; [reflexivity|].
    eapply local_trans; [apply (put_all_local _ h []); apply fset_same|]. rewrite fset_twice. cbn [app].
    destruct n as [|n]; [lia|]. cbn [seq map index nth_error lift]. eapply local_S; [reflexivity|]. constructor.
  Qed.

  (** With fewer than two rows somewhere it stops before writing anything. *)
  Lemma collate_spoiled outdir (name : nat -> str) outbn n hdr w rss f k :
    (2 <= w)%nat -> comment hdr -> List.length rss = n ->
    Forall (Forall (fun r => List.length r = w /\ Forall word r)) rss ->
    Exists (fun rs => (List.length rs <= 1)%nat) rss ->
    (forall i, (i < n)%nat -> f (outdir, name i) = Some (Text (hdr ++ List.concat (map row_text (nth i rss []))))) ->
    exists e, (e = ValueError \/ e = IndexError) /\ local (collate outdir name outbn n k) f (Exit (Err e)) f.
  Proof.
    intros Hw Hh HL HR HE Hf. unfold collate.
    assert (HRD : forall k' : list sarr -> prog A, local (read_all (map (fun bn => (outdir, bn)) (map name (seq 0 n))) [] k') f
                    (k' (map (as_array w) rss)) f).
    { intros k'. apply (read_all_local _ (map (fun rs => hdr ++ List.concat (map row_text rs)) rss) (map (as_array w) rss) []).
      - rewrite map_map. rewrite <- HL in *. clear - Hf.
        assert (G : forall m (l : list (list (list str))),
          (forall i, (i < List.length l)%nat -> f (outdir, name (m + i)%nat) = Some (Text (hdr ++ List.concat (map row_text (nth i l []))))) ->
          Forall2 (fun fn s => f fn = Some (Text s)) (map (fun x => (outdir, name x)) (seq m (List.length l)))
            (map (fun rs => hdr ++ List.concat (map row_text rs)) l)).
        { intros m l. revert m. induction l as [|rs l IH]; intros m H; cbn [List.length seq map]; [constructor|].
          constructor.
          - specialize (H 0%nat ltac:(cbn; lia)). rewrite Nat.add_0_r in H. exact H.
          - apply IH. intros i Hi. specialize (H (S i) ltac:(cbn; lia)). now rewrite Nat.add_succ_r in H. }
        now apply (G 0%nat).
      - clear - Hw Hh HR. induction HR as [|rs rss HR _ IH]; cbn [map]; constructor; [|exact IH].
        now apply genfromtxt_rows. }
    destruct (concat_spoiled w rss HE) as [E|(l & E)].
    - exists ValueError. split; [now left|]. eapply local_trans; [apply HRD|]. cbv beta. rewrite E. constructor.
    - exists IndexError. split; [now right|]. eapply local_trans; [apply HRD|]. cbv beta. rewrite E. constructor.
  Qed.
End Local.

(** ** Names *)

Lemma glob_spec pre suf s : glob pre suf s = true <-> exists mid, s = pre ++ mid ++ suf /\ ~ In "/"%char mid.
Proof.
  unfold glob. rewrite andb_true_iff, eqb_str_eq, forallb_forall. split.
  - intros [E H]. eexists. split; [exact E|]. intros Hin. specialize (H _ Hin). cbn in H. discriminate.
  - intros (mid & -> & H). rewrite !app_length.
    replace (List.length pre + (List.length mid + List.length suf) - List.length pre - List.length suf)%nat
      with (List.length mid) by lia.
    rewrite skipn_app, skipn_all, Nat.sub_diag. cbn [app skipn].
    rewrite firstn_app, firstn_all, Nat.sub_diag. cbn [firstn]. rewrite app_nil_r. split; [reflexivity|].
    intros c Hc. apply negb_true_iff. destruct (Ascii.eqb_spec c "/") as [->|]; [contradiction|reflexivity].
Qed.

Lemma str_of_int_inj a b : str_of_int a = str_of_int b -> a = b.
Proof. intros E. pose proof (parse_int_str a) as H. rewrite E, parse_int_str in H. congruence. Qed.

Lemma tmp_name_inj i j : tmp_name i = tmp_name j -> i = j.
Proof.
  unfold tmp_name. intros E. apply app_inv_head in E. apply app_inv_tail in E.
  apply str_of_int_inj in E. now apply Nat2Z.inj.
Qed.

Lemma int_no c z : ~ safe c -> ~ In c (str_of_int z).
Proof. intros H Hin. pose proof (safe_int z) as HS. rewrite Forall_forall in HS. now apply H, HS. Qed.

Lemma rm_prefix_tmp : rm_prefix (tmp_name 0) = lit "tmp_mah_fits_rank_".
Proof. reflexivity. Qed.

Lemma tmp_glob i : glob (lit "tmp_mah_fits_rank_") (lit ".dat") (tmp_name i) = true.
Proof.
  apply glob_spec. exists (str_of_int (Z.of_nat i)). split; [reflexivity|]. apply int_no. intros (_ & _ & _ & H). now apply H.
Qed.

Lemma comment_HEADER : comment HEADER.
Proof.
  exists (removelast (skipn 1 HEADER)). split; [reflexivity|].
  split; vm_compute; intuition discriminate.
Qed.
Lemma comment_HEADER_HALO_ID : comment HEADER_HALO_ID.
Proof.
  exists (removelast (skipn 1 HEADER_HALO_ID)). split; [reflexivity|].
  split; vm_compute; intuition discriminate.
Qed.

(** ** The rows written for fits *)

Lemma words_none fr : List.length (out_fields fr) = 8%nat /\ Forall word (out_fields fr).
Proof.
  split; [reflexivity|]. pose proof (out_fields_field fr) as H1. pose proof (safe_fields fr) as H2.
  rewrite Forall_forall in *. intros s Hs. split; [apply (H1 s Hs)|apply (H2 s Hs)].
Qed.
Lemma words_some fr i : List.length (str_of_int i :: out_fields fr) = 9%nat /\ Forall word (str_of_int i :: out_fields fr).
Proof.
  split; [reflexivity|]. constructor; [|apply words_none]. split; [apply (str_of_int_field i)|apply safe_int].
Qed.

Lemma outline_row fr : get_outline fr None = row_text (out_fields fr).
Proof. apply outline_none. Qed.
Lemma outline_row_id fr i : get_outline fr (Some i) = row_text (str_of_int i :: out_fields fr).
Proof. apply outline_some. Qed.
