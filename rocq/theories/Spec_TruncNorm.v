(** The truncated normal distribution (scipy.stats.truncnorm): the normal
    distribution of location [loc] and scale [scale], conditioned on the
    standardised variable lying in [a, b]. *)

From Coq Require Import Reals.
From Coquelicot Require Import Coquelicot.
Local Open Scope R_scope.

(** The normal density up to its constant. *)
Definition gauss (t : R) : R := exp (- (t * t) / 2).

Definition truncnorm_cdf_R (x a b loc scale : R) : R :=
  let z := (x - loc) / scale in
  if Rle_dec z a then 0
  else if Rle_dec b z then 1
  else RInt gauss a z / RInt gauss a b.

Definition truncnorm_pdf_R (x a b loc scale : R) : R :=
  let z := (x - loc) / scale in
  if Rlt_dec z a then 0
  else if Rlt_dec b z then 0
  else gauss z / RInt gauss a b / scale.
