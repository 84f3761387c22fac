(** Direction cosine matrices: /repo/AMAT/visibility.py:21-94 and, with the same text,
    /repo/AMAT/approach.py:298-389. *)
Require Import Verif.Base.

(** visibility.py:54-56, approach.py:313-315 *)
Definition R1 (t : R) : mat := M3 (V3 1 0 0) (V3 0 (cos t) (sin t)) (V3 0 (- sin t) (cos t)).
(** visibility.py:73-75, approach.py:332-334 *)
Definition R2 (t : R) : mat := M3 (V3 (cos t) 0 (- sin t)) (V3 0 1 0) (V3 (sin t) 0 (cos t)).
(** visibility.py:92-94, approach.py:351-353 *)
Definition R3 (t : R) : mat := M3 (V3 (cos t) (sin t) 0) (V3 (- sin t) (cos t) 0) (V3 0 0 1).

(** visibility.py:36-37, approach.py:370-371; [a0], [d0] are right ascension and declination of the pole. *)
Definition ICRF_to_BI_matrix (a0 d0 : R) : mat := mmul (R1 (PI / 2 - d0)) (R3 (PI / 2 + a0)).
Definition ICRF_to_BI (a0 d0 : R) (v : vec) : vec := mvmul (ICRF_to_BI_matrix a0 d0) v.

(** approach.py:388-389 *)
Definition BI_to_BI_dprime_matrix (phi_1 phi_2 : R) : mat := mmul (R2 phi_2) (R3 phi_1).
Definition BI_to_BI_dprime (phi_1 phi_2 : R) (v : vec) : vec := mvmul (BI_to_BI_dprime_matrix phi_1 phi_2) v.
