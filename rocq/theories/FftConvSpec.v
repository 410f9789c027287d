(** Specification of the 'same'-mode convolution. *)
From Verif Require Import Base Sum CRing Cplx FftSpec.
Open Scope Z_scope.

(** Element (i, j) of an n x n matrix stored by rows, zero outside *)
Definition at0 (a : nd C) (n i j : Z) : C :=
  if (0 <=? i) && (i <? n) && (0 <=? j) && (j <? n) then elem a [i * n + j] else C0.
(** The full linear convolution of an n1 x n1 and an n2 x n2 matrix, elements (0,0) ... (n1+n2-2, n1+n2-2) *)
Definition full_conv (x : nd C) (n1 : Z) (y : nd C) (n2 k l : Z) : C :=
  csum 0 n1 (fun a => csum 0 n1 (fun b => Cmul (elem x [a * n1 + b]) (at0 y n2 (k - a) (l - b)))).
