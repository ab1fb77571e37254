(** Specification vocabulary for the diagnostic figures. *)

From Coq Require Import Reals String List.
From Verif Require Import Model_PopMC Model_Plots.
Import ListNotations.
Local Open Scope R_scope.

(** The observation times a figure is about: after 13.5 Gyr, or within half a
    Gyr of 3. *)
Definition shown (e : epoch) (t : R) : Prop :=
  match e with Z0 => 13.5 < t | Z2 => 2.5 < t < 3.5 end.

(** The three masses of a single-panel figure. *)
Definition panel_masses (g : galaxy) (e : epoch) : list R :=
  match g, e with
  | Cen, _ => [11.25; 12.75; 14.25]
  | Sat, Z0 => [11.25; 12.25; 13.5]
  | Sat, Z2 => [11.25; 12.75; 14.25]
  end.

(** The fifteen masses of a residual panel: evenly spaced from 10^11 to the
    mass named in the legend. *)
Definition top_mass (g : galaxy) : R := match g with Cen => 14.5 | Sat => 13.5 end.
Definition residual_mass (g : galaxy) (j : nat) : R := 11 + (top_mass g - 11) * INR j / 14.

(** The four panels: time and title. *)
Definition panels (g : galaxy) : list (R * string) :=
  let what := match g with Cen => "host halos" | Sat => "subhalos" end%string in
  map (fun tt : R * string => (fst tt, what ++ ": t_obs = " ++ snd tt)%string)
    [(4, "4.0"); (7, "7.0"); (10, "10.0"); (13, "13.0")]%string.

(** Sums and differences of arrays of equal length. *)
Definition is_sum (x y z : list R) : Prop :=
  List.length y = List.length x /\ List.length z = List.length x /\
  forall i, (i < List.length x)%nat -> nth i z 0 = nth i x 0 + nth i y 0.
Definition is_difference (x y z : list R) : Prop :=
  List.length y = List.length x /\ List.length z = List.length x /\
  forall i, (i < List.length x)%nat -> nth i z 0 = nth i x 0 - nth i y 0.

(** A row whose three arrays have one length. *)
Definition tidy (b : Bin R) : Prop :=
  List.length (bin_mean b) = List.length (bin_tarr b) /\ List.length (bin_std b) = List.length (bin_tarr b).

(** A table with one row for every pair of a time and a mass. *)
Definition grid (data : list (Bin R)) : Prop :=
  forall b b', In b data -> In b' data ->
    exists b'', In b'' data /\ bin_t_obs b'' = bin_t_obs b /\ bin_lgm_obs b'' = bin_lgm_obs b'.
