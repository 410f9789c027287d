(** Vocabulary for quadrature *)
From Verif Require Import Base Cplx EsKernels EsKernelsSpec.
Open Scope Z_scope.
(** The even polynomial with coefficients a 0, ..., a (n - 1) *)
Definition even_poly (n : Z) (a : Z -> R) (y : R) : R := rsumf 0 n (fun k => (a k * y ^ (2 * Z.to_nat k))%R).
