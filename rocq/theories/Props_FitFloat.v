(** Masses below the fitting threshold in double precision (C82). *)

From Coq Require Import Reals ZArith List Lra Lia.
From Flocq Require Import Core.
From Verif Require Import Model_Num RealAux Model_Base Model_Kernels Model_Fitter Model_Float
  Spec_Fitter Spec_Float Proofs_Float5 Proofs_Fitter Proofs_FitFloat.
Import ListNotations.
Local Open Scope R_scope.

(** numpy's double precision. *)
Local Notation double := (Num_xfl binary64 big64).

(** C82.  The 1e-7 that is added to [10**lgm_min] is lost in rounding as soon as
    [10**lgm_min] reaches 2^30: a mass below the threshold gets the rounded log10 of
    the threshold, a mass above it its own. *)
Theorem C82_offset_lost : forall lgm_min ms,
  let threshold := lib_pow10 binary64 lgm_min in
  bpow radix2 30 <= threshold <= big64 -> (forall m, In m ms -> m <= big64) ->
  get_clipped_log_mah_in double (map Fin ms) (Fin lgm_min)
  = map (fun m => Fin (lib_log10 binary64 (Rmax m threshold))) ms.
Proof. exact clipped_64. Qed.
Print Assumptions C82_offset_lost.

(** For a whole number [n] from 10 to 22 the floored log-mass is [n] itself. *)
Theorem C82_floor_is_threshold : forall n ms, (10 <= n <= 22)%Z -> (forall m, In m ms -> m <= big64) ->
  exists ys, get_clipped_log_mah_in double (map Fin ms) (Fin (IZR n)) = map Fin ys /\
    length ys = length ms /\
    forall i m y, nth_error ms i = Some m -> nth_error ys i = Some y ->
      (m <= IZR (10 ^ n) -> y = IZR n) /\
      (IZR (10 ^ n) < m -> y = lib_log10 binary64 m /\ IZR n <= y).
Proof. exact clipped_power. Qed.
Print Assumptions C82_floor_is_threshold.

(** So every point of the fit lies above the threshold, as documented, although in
    exact arithmetic none is removed (C34_cut_without_effect). *)
Theorem C82_points_below_removed : forall n ts ms cut tmin logt log_mah,
  (10 <= n <= 22)%Z -> (forall m, In m ms -> m <= big64) -> length ts = length ms ->
  get_target_data_in double ts (get_clipped_log_mah_in double (map Fin ms) (Fin (IZR n)))
    (Fin (IZR n)) cut tmin = Ok (logt, log_mah) ->
  exists keep sel, subsequence_of keep (combine ts ms) sel /\
    (forall t m, keep (t, m) -> IZR (10 ^ n) < m) /\
    logt = map (fun tm => @nlog10 xr double (fst tm)) sel /\
    log_mah = maximum_accumulate (map (fun tm => Fin (lib_log10 binary64 (snd tm))) sel).
Proof. exact cut_below. Qed.
Print Assumptions C82_points_below_removed.

(** Without a threshold a zero mass has log-mass -7 exactly. *)
Theorem C82_zero_mass : forall ms, (forall m, In m ms -> 0 <= m <= big64) ->
  forall i, nth_error ms i = Some 0 ->
  nth_error (get_clipped_log_mah_in double (map Fin ms) MInf) i = Some (Fin (-7)).
Proof. exact clipped_zero. Qed.
Print Assumptions C82_zero_mass.

(** The exact targets are the same functions in exact arithmetic. *)
Example C82_same_code : get_clipped_log_mah = get_clipped_log_mah_in Num_xr /\
  get_target_data = get_target_data_in Num_xr.
Proof. split; reflexivity. Qed.

(** The two differ: masses 0 and 10^12 at times 2 and 13 with [lgm_min = 11]. *)
Example C82_difference :
  (exists logt log_mah,
    get_target_data_in double [Fin 2; Fin 13]
      (get_clipped_log_mah_in double (map Fin [0; IZR (10 ^ 12)]) (Fin (IZR 11)))
      (Fin (IZR 11)) (Fin (25 / 10)) (Fin 1) = Ok (logt, log_mah) /\ (length logt <= 1)%nat) /\
  (exists logt log_mah,
    get_target_data [Fin 2; Fin 13]
      (get_clipped_log_mah (map Fin [0; IZR (10 ^ 12)]) (Fin (IZR 11)))
      (Fin (IZR 11)) (Fin (25 / 10)) (Fin 1) = Ok (logt, log_mah) /\ length logt = 2%nat).
Proof.
  assert (HB : forall m, In m [0; IZR (10 ^ 12)] -> m <= big64).
  { pose proof (pow10_range 12 ltac:(lia)) as H. pose proof (bpow_gt_0 radix2 30).
    intros m [<- | [<- | []]]; lra. }
  split.
  - destruct (C82_floor_is_threshold 11 [0; IZR (10 ^ 12)] ltac:(lia) HB) as (ys & E & L & _).
    destruct ys as [|y1 [|y2 [|]]]; try discriminate L.
    destruct (get_target_data_in double [Fin 2; Fin 13]
      (get_clipped_log_mah_in double (map Fin [0; IZR (10 ^ 12)]) (Fin (IZR 11)))
      (Fin (IZR 11)) (Fin (25 / 10)) (Fin 1)) as [[logt log_mah] | e] eqn:ET.
    2:{ rewrite E in ET. discriminate ET. }
    exists logt, log_mah. split; [reflexivity|].
    destruct (C82_points_below_removed 11 [Fin 2; Fin 13] [0; IZR (10 ^ 12)] _ _ _ _ ltac:(lia) HB eq_refl ET)
      as (keep & sel & S & K & -> & _).
    rewrite map_length. cbn [combine] in S. inversion S as [|a l s Ka S' | a l s _ S']; subst.
    + exfalso. apply K in Ka. pose proof (IZR_lt 0 (10 ^ 11) ltac:(lia)). lra.
    + inversion S' as [|a l s _ S'' | a l s _ S'']; subst; inversion S''; subst; cbn; lia.
  - change (Fin (IZR 11)) with (lgm_arg (Some (IZR 11))). rewrite clipped_fin.
    unfold floored_logmass, mass_floor. rewrite pow10_Z by lia. cbn [map].
    destruct (Rle_dec 0 (IZR (10 ^ 11))) as [_ | Q]; [|exfalso; apply Q; apply IZR_le; lia].
    destruct (Rle_dec (IZR (10 ^ 12)) (IZR (10 ^ 11))) as [Q | _]; [apply le_IZR in Q; lia|].
    rewrite <- (pow10_Z 12), log10_pow10 by lia.
    assert (H : 11 < log10 (1 / 10000000 + IZR (10 ^ 11))).
    { apply log10_gt_pow10. change 11 with (IZR 11). rewrite pow10_Z by lia. lra. }
    set (y := log10 (1 / 10000000 + IZR (10 ^ 11))) in *.
    eexists. eexists. split; [unfold get_target_data, get_target_data_in; reflexivity|].
    cbn [getlast last combine map snd fst lgm_arg nsub Num_xr xsub xneg xadd].
    rewrite !xleb_fin. cbn [xltb].
    repeat match goal with |- context [Rltb ?a ?b] => rewrite (proj2 (Rltb_true a b)) by lra end.
    repeat match goal with |- context [Rleb ?a ?b] => rewrite (proj2 (Rleb_true a b)) by lra end.
    reflexivity.
Qed.
