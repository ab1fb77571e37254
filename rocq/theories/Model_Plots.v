(** Model of the diagnostic figures
    (diffmahpop_kernels/diagnostics/plot_bestfit_cen_mahs.py and
    plot_bestfit_sat_mahs.py).

    PCM below is plot_bestfit_cen_mahs.py; plot_bestfit_sat_mahs.py is the same
    text, one line further down, with mc_bimod_sats in place of mc_bimod_cens
    and some other masses and titles, so every function is written once with
    the argument [g].

    The table of targets is a list of rows ([Bin], whose columns bin_tarr,
    bin_lgm_obs, bin_t_obs, bin_mean and bin_std stand for t_table, lgm_obs,
    t_obs, mean_log_mah and std_log_mah) of real numbers, without NaN.  A figure
    is what the calls of matplotlib put into it: the title of each panel, the
    curves and bands in the order of the calls, and the file it is saved in.
    [drn] is a non-empty directory name without a slash at the end.
    Left out: colours, widths, axis limits and labels, the legend and the zero
    line of the residuals, whose extent matplotlib chooses. *)

From Coq Require Import Reals String List Bool Arith.
From Verif Require Import Model_Num RealAux Model_Base Model_Kernels Model_Utils Model_PopBase Model_PopData
  Model_PopParams Model_PopKernels Model_PopMC.
Import ListNotations.
Local Open Scope R_scope.
Local Open Scope string_scope.

(** ax.plot(xs, ys, fmt) and ax.fill_between(xs, lo, hi) *)
Inductive artist : Type :=
| Curve (fmt : string) (xs ys : list R)
| Band (xs lo hi : list R).

(** matplotlib refuses curves whose x and y have different lengths with a
    ValueError. *)
Definition plot (fmt : string) (xs ys : list R) : res artist :=
  if Nat.eqb (List.length xs) (List.length ys) then Ok (Curve fmt xs ys) else Err ValueError.
Definition fill_between (xs lo hi : list R) : res artist :=
  if Nat.eqb (List.length xs) (List.length lo) && Nat.eqb (List.length xs) (List.length hi)
  then Ok (Band xs lo hi) else Err ValueError.

(** x + y and x - y of two arrays; different lengths do not broadcast (against
    length 1 they would, which is left out). *)
Fixpoint zip_with (f : R -> R -> R) (x y : list R) : list R :=
  match x, y with a :: x', b :: y' => f a b :: zip_with f x' y' | _, _ => [] end.
Definition arr_op (f : R -> R -> R) (x y : list R) : res (list R) :=
  if Nat.eqb (List.length x) (List.length y) then Ok (zip_with f x y) else Err ValueError.

(** np.argmin: the first smallest entry; an empty array raises ValueError. *)
Fixpoint argmin_from (i best : nat) (vbest : R) (l : list R) : nat :=
  match l with
  | [] => best
  | v :: l' => if Rltb v vbest then argmin_from (S i) i v l' else argmin_from (S i) best vbest l'
  end.
Definition np_argmin (l : list R) : res nat :=
  match l with [] => Err ValueError | v :: l' => Ok (argmin_from 1 0 v l') end.

(** table[column][ih] *)
Definition row {X} (l : list X) (ih : nat) : res X :=
  match nth_error l ih with Some x => Ok x | None => Err IndexError end.

Record figure : Type := mkFigure {
  fig_panels : list (string * list artist);
  fig_file : string
}.

(** PCM:18 *)
Definition LGT0_SMDPL : R := nlog10 (1379 / 100).

(** The two epochs, PCM:34 and 127 *)
Inductive epoch : Type := Z0 | Z2.
Definition in_epoch (e : epoch) (t : R) : bool :=
  match e with Z0 => Rltb (135 / 10) t | Z2 => Rltb (Rabs (t - 3)) (1 / 2) end.

(** PCM:38, 62, 86, 131, 155, 179 and the same lines of plot_bestfit_sat_mahs.py *)
Definition single_panel_masses (g : galaxy) (e : epoch) : list R :=
  match g, e with
  | Sat, Z0 => [1125 / 100; 1225 / 100; 1350 / 100]
  | _, _ => [1125 / 100; 1275 / 100; 1425 / 100]
  end.

Section Figures.
  Variable F : R -> R -> R -> R -> R -> R.
  Variable G : rng R.

  (** PCM:37-59: one mass of a single-panel figure *)
  Definition single_panel_mass (g : galaxy) (sample : list (Bin R)) (params : rec R) (m : R) : mc (list artist) :=
    do* ih := mlift (np_argmin (map (fun b => Rabs (bin_lgm_obs b - m)) sample)) in
    do* b := mlift (row sample ih) in
    do* ylo := mlift (arr_op Rminus (bin_mean b) (bin_std b)) in
    do* yhi := mlift (arr_op Rplus (bin_mean b) (bin_std b)) in
    do* band := mlift (fill_between (bin_tarr b) ylo yhi) in
    do* target := mlift (plot "-" (bin_tarr b) (bin_mean b)) in
    do* (mean_log_mah, std_log_mah, frac_peaked) :=
      predict_mah_moments_singlebin F G g params (bin_tarr b) (bin_lgm_obs b) (bin_t_obs b) (Seed 0) LGT0_SMDPL in
    do* ylo := mlift (arr_op Rminus mean_log_mah std_log_mah) in
    do* yhi := mlift (arr_op Rplus mean_log_mah std_log_mah) in
    do* c := mlift (plot "--" (bin_tarr b) mean_log_mah) in
    do* lo := mlift (plot ":" (bin_tarr b) ylo) in
    do* hi := mlift (plot ":" (bin_tarr b) yhi) in
    mret [band; target; c; lo; hi].

  (** PCM:27-117 and 120-210 *)
  Definition plot_singlepanel_mahs (g : galaxy) (e : epoch) (data : list (Bin R)) (params : rec R) (drn : string)
    : mc figure :=
    let sample := filter (fun b => in_epoch e (bin_t_obs b)) data in
    do* groups := mseq (map (single_panel_mass g sample params) (single_panel_masses g e)) in
    let title := ((match g with Cen => "host halos: " | Sat => "subhalos: " end) ++
                  (match e with Z0 => "z=0" | Z2 => "z=2" end))%string in
    let name := ("diffmahpop_mu_var_single_panel_" ++ (match g with Cen => "cens" | Sat => "sats" end) ++
                 (match e with Z0 => "_z0.png" | Z2 => "_z2.png" end))%string in
    mret (mkFigure [(title, concat groups)] (drn ++ "/" ++ name)).

  (** PCM:215-216, 221 *)
  Definition N_MASS : nat := 15.
  Definition residual_masses (g : galaxy) : list R :=
    linspace 11 (match g with Cen => 145 / 10 | Sat => 135 / 10 end) N_MASS.
  Definition residual_times : list (R * string) := [(4, "4.0"); (7, "7.0"); (10, "10.0"); (13, "13.0")].

  (** PCM:228-243: one curve of a residual panel *)
  Definition residual_curve (g : galaxy) (data : list (Bin R)) (params : rec R) (t_obs_panel lgm_obs_plot : R)
    : mc artist :=
    do* ih := mlift (np_argmin (map (fun b => Rabs (bin_t_obs b - t_obs_panel) + Rabs (bin_lgm_obs b - lgm_obs_plot)) data)) in
    do* b := mlift (row data ih) in
    do* (mean_log_mah_pred, std_log_mah, frac_peaked) :=
      predict_mah_moments_singlebin F G g params (bin_tarr b) (bin_lgm_obs b) (bin_t_obs b) (Seed 0) LGT0_SMDPL in
    do* y := mlift (arr_op Rminus mean_log_mah_pred (bin_mean b)) in
    mlift (plot "-" (bin_tarr b) y).

  (** PCM:213-329 *)
  Definition plot_mah_4panel_residuals (g : galaxy) (data : list (Bin R)) (params : rec R) (drn : string)
    : mc figure :=
    do* panels := mseq (map (fun tt : R * string =>
      do* curves := mseq (map (residual_curve g data params (fst tt)) (residual_masses g)) in
      mret ((match g with Cen => "host halos: t_obs = " | Sat => "subhalos: t_obs = " end) ++ snd tt, curves)%string)
      residual_times) in
    mret (mkFigure panels (drn ++ "/diffmahpop_mu_var_4panel_residuals_" ++
                           (match g with Cen => "cens.png" | Sat => "sats.png" end))).
End Figures.
