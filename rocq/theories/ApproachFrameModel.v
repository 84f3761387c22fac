(** The B-plane axes in the double-prime frame, set by Approach.__init__ but read by nothing else in the constructor:
    /repo/AMAT/approach.py:235, 239. *)
Require Import Verif.Base Verif.PlanetModel Verif.FrameModel Verif.ApproachModel.
(** approach.py:235 *)
Definition T_unit_dprime (A : approach) : option vec := leto u := T_unit A in Some (BI_to_BI_dprime (phi_1 A) (phi_2 A) u).
(** approach.py:239 *)
Definition R_unit_dprime (A : approach) : option vec := leto u := R_unit A in Some (BI_to_BI_dprime (phi_1 A) (phi_2 A) u).
(** B_vec_bi, approach.py:244 *)
Definition B_vec (A : approach) : option vec := leto u := h_vec A in Some (cross (v_inf_bi A) u).
