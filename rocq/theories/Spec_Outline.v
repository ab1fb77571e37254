(** Specification vocabulary for the text output. *)

From Coq Require Import Reals List ZArith Ascii.
From Verif Require Import Model_Num Model_Base Model_Outline.
Import ListNotations.
Local Open Scope R_scope.

(** A decimal number with at most six significant digits. *)
Definition six_digit (z : R) : Prop :=
  exists M k : Z, z = IZR M * powerRZ 10 k /\ (Z.abs M < 1000000)%Z.

(** [y] is a closest six-digit decimal to [x]. *)
Definition nearest_six (x y : R) : Prop :=
  six_digit y /\ forall z, six_digit z -> Rabs (x - y) <= Rabs (x - z).

(** What comes back for a written number: a closest six-digit decimal; NaN and
    infinities come back as they are. *)
Definition reads_back (x y : xr) : Prop :=
  match x with
  | Fin r => exists q, y = Fin q /\ nearest_six r q
  | _ => y = x
  end.

(** A field of a line: not empty and without white space. *)
Definition field (s : str) : Prop := s <> [] /\ forall c, In c s -> is_space c = false.

(** A line: the words separated by single spaces, ended by a newline. *)
Inductive line_of : list str -> str -> Prop :=
| line_one : forall w, line_of [w] (w ++ [ascii_of_nat 10])
| line_more : forall w l s, line_of l s -> line_of (w :: l) (w ++ " "%char :: s).

(** Dataset [c] holds column [j] of the table, read as floats or as integers. *)
Definition float_dataset (t : table) (j : nat) (c : column) : Prop :=
  exists l, c = FloatCol l /\ Forall2 (fun r x => parse_float (nth j r []) = Ok x) (rows t) l.
Definition int_dataset (t : table) (j : nat) (c : column) : Prop :=
  exists l, c = IntCol l /\ Forall2 (fun r x => parse_int (nth j r []) = Ok x) (rows t) l.

(** All cells of column [j] are float (integer) literals. *)
Definition float_cells (t : table) (j : nat) : Prop :=
  forall r, In r (rows t) -> exists x, parse_float (nth j r []) = Ok x.
Definition int_cells (t : table) (j : nat) : Prop :=
  forall r, In r (rows t) -> exists x, parse_int (nth j r []) = Ok x.
