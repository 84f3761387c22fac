(** compute_ApoapsisAltitudeKm and compute_PeriapsisAltitudeKm (vehicle.py:4316-4370, 4401-4455) from the exit state, with a
    rounding after every operation.  [sq] is the machine's power function with exponent 2; sine, cosine, arc cosine and the
    scalar product of three-vectors (np.dot and, under a root, np.linalg.norm) are the machine's, so that nothing is said of
    the order in which the library adds. *)
Require Import Verif.Base Verif.PlanetModel Verif.OrbiterModel Verif.OrbitRoundModel.
Local Open Scope R_scope.

Record mathlib := mkLib { m_sin : R -> R; m_cos : R -> R; m_acos : R -> R; m_dot : vec -> vec -> R }.

Section Rounded.
  Variables (rnd sq : R -> R) (L : mathlib).
  (** v_pr_x, v_pr_y, v_pr_z: vehicle.py:4317-4325. *)
  Definition rel_r (x : exit_state) : vec :=
    let v := x_v x in let sg := m_sin L (x_g x) in let cg := m_cos L (x_g x) in let sf := m_sin L (x_phi x) in let cf := m_cos L (x_phi x) in
    let st := m_sin L (x_theta x) in let ct := m_cos L (x_theta x) in let sp := m_sin L (x_psi x) in let cp := m_cos L (x_psi x) in
    let up := rnd (rnd (v * sg) * cf) in let east := rnd (rnd (v * cg) * cp) in let north := rnd (rnd (v * cg) * sp) in
    V3 (rnd (rnd (rnd (up * ct) + rnd (east * rnd (-1 * st))) + rnd (north * rnd (rnd (-1 * sf) * ct))))
       (rnd (rnd (rnd (up * st) + rnd (east * ct)) + rnd (north * rnd (rnd (-1 * sf) * st))))
       (rnd (rnd (rnd (v * sg) * sf) + rnd (north * cf))).
  (** v_ie_x, v_ie_y, v_ie_z: vehicle.py:4328-4330. *)
  Definition ie_r (omega : R) (x : exit_state) : vec :=
    let w := rel_r x in let cf := m_cos L (x_phi x) in let spin := rnd (rnd (x_r x * omega) * cf) in
    V3 (rnd (vx w + rnd (rnd (spin * m_sin L (x_theta x)) * -1))) (rnd (vy w + rnd (spin * m_cos L (x_theta x)))) (vz w).
  (** terminal_r_vec: vehicle.py:4333-4335. *)
  Definition pos_r (x : exit_state) : vec :=
    let cf := m_cos L (x_phi x) in
    V3 (rnd (x_r x * rnd (cf * m_cos L (x_theta x)))) (rnd (x_r x * rnd (cf * m_sin L (x_theta x)))) (rnd (x_r x * m_sin L (x_phi x))).
  (** w / np.linalg.norm(w): vehicle.py:4338, 4344.  Not finite if the norm is zero. *)
  Definition hat_r (w : vec) : option vec :=
    let n := rnd (sqrt (m_dot L w w)) in if Reqb n 0 then None else Some (V3 (rnd (vx w / n)) (rnd (vy w / n)) (rnd (vz w / n))).
  (** v_ie_mag: vehicle.py:4354. *)
  Definition speed_r (w : vec) : R := rnd (sqrt (rnd (rnd (sq (vx w) + sq (vy w)) + sq (vz w)))).
  (** terminal_fpa_ie_rad: vehicle.py:4349-4350.  np.arccos is nan outside [-1, 1]. *)
  Definition fpa_r (x : exit_state) (w : vec) : option R :=
    leto ru := hat_r (pos_r x) in leto vu := hat_r w in
    let d := m_dot L ru vu in
    if Rltb 1 (Rabs d) then None
    else Some (rnd (rnd (rnd (90 - rnd (rnd (180 / rnd PI) * m_acos L d)) * rnd PI) / 180)).
  (** The whole functions; [rp] is the planet's radius. *)
  Definition apsis_r (apo : bool) (gm rp omega : R) (x : exit_state) : option R :=
    let w := ie_r omega x in
    leto g := fpa_r x w in
    (if apo then apo_km_r else peri_km_r) rnd sq gm rp (x_r x) (speed_r w) (m_cos L g).
End Rounded.
