(** Model of /repo/AMAT/telecom.py. *)
Require Import Verif.Base Verif.Numpy.

(** Link.compute_dB, telecom.py:173-187: 10*np.log10(X); [None] is -inf/NaN. *)
Definition compute_dB (x : R) : option R := leto l := np_log10 x in Some (10 * l).

(** Link.compute_antenna_gain, telecom.py:189-206. *)
Definition compute_antenna_gain (eta D wavelength : R) : R := eta * ((PI * D) / wavelength) ^ 2.

(** Link.compute_free_space_loss_dB, telecom.py:208-223. *)
Definition compute_free_space_loss_dB (range wavelength : R) : option R :=
  leto l := np_log10 (4 * PI * range / wavelength) in Some (20 * l).

(** Python truthiness of an optional float: None and 0.0 are false. *)
Definition truthy (x : option R) : bool := match x with Some v => negb (Reqb v 0) | None => false end.

(** Arguments of Link.__init__, telecom.py:75-77. *)
Record link_args := mkLinkArgs {
  freq : R; Pt : R; Ts : R; range_km : R; L_other_dB : R; rate_kbps : R; Eb_N0_req : R;
  Dt : option R; eta_t : option R; Gt_dBi : option R;
  Dr : option R; eta_r : option R; Gr_dBi : option R;
  Lt_dB : R; L_sc_dB : R; La_dB : R; L_DSN_dB : R }.

(** The computed fields of a Link. *)
Record link := mkLink {
  wavelength : R; lk_Gt_dBi : option R; lk_Gr_dBi : option R; lk_R : R;
  EB_N0 : option R; EB_N0_margin : option R;
  lk_Pt_dB : option R; lk_Ts_dBK : option R; lk_Ls_dB : option R; lk_Ka_dB : option R; lk_R_dBHz : option R }.

(** Transmitter branch, telecom.py:129-140.  [Ok None] means the attribute Gt_dBi was never set. *)
Definition tx_gain (a : link_args) (wl : R) : res (option (option R)) :=
  if truthy (Dt a) && truthy (eta_t a) then
    match Dt a, eta_t a with
    | Some D, Some e => Ok (Some (compute_dB (compute_antenna_gain e D wl)))
    | _, _ => Ok None
    end
  else if truthy (Gt_dBi a) then Ok (Some (Gt_dBi a))
  else Ok None.

(** Receiver branch, telecom.py:144-155.  Line 145 assigns self.Dr = Dt (the transmitter's
    diameter); 0.25*np.pi*None at line 146 raises TypeError. *)
Definition rx_gain (a : link_args) (wl : R) : res (option (option R)) :=
  if truthy (Dr a) && truthy (eta_r a) then
    match Dt a, eta_r a with
    | Some D, Some e => Ok (Some (compute_dB (compute_antenna_gain e D wl)))
    | _, _ => Err TypeError
    end
  else if truthy (Gr_dBi a) then Ok (Some (Gr_dBi a))
  else Ok None.

(** Link.__init__, telecom.py:117-171.  Simplification: Python floats, so 3E8/0.0 raises
    ZeroDivisionError (in line 118 and, for a zero wavelength, never). *)
Definition Link (a : link_args) : res link :=
  let f := freq a * 1e9 in
  if Reqb f 0 then Err ZeroDivisionError else
  let wl := 3e8 / f in
  let Pt_dB := compute_dB (Pt a) in
  letr gt := tx_gain a wl in
  letr gr := rx_gain a wl in
  let Ts_dBK := compute_dB (Ts a) in
  let Ls_dB := compute_free_space_loss_dB (range_km a * 1e3) wl in
  let Ka_dB := compute_dB 1.38e-23 in
  let rate := rate_kbps a * 1e3 in
  let R_dBHz := compute_dB rate in
  match gt, gr with
  | Some g1, Some g2 =>
      let e :=
        leto pt := Pt_dB in leto gtv := g1 in leto grv := g2 in leto ts := Ts_dBK in
        leto ls := Ls_dB in leto rr := R_dBHz in leto ka := Ka_dB in
        Some (pt + gtv - Lt_dB a - L_sc_dB a + grv - ts - ls - La_dB a - L_other_dB a - L_DSN_dB a - rr - ka) in
      Ok (mkLink wl g1 g2 rate e (leto v := e in Some (v - Eb_N0_req a)) Pt_dB Ts_dBK Ls_dB Ka_dB R_dBHz)
  | _, _ => Err AttributeError
  end.

(** Schedule.__init__ inner loop, telecom.py:293-298, for one time: the flag after scanning the
    windows, starting from the stored value [cur]; break at the first window containing t. *)
Fixpoint scan_windows (ws : list (R * R)) (t : R) (cur : bool) : bool :=
  match ws with
  | [] => cur
  | (a, b) :: ws' => if Rleb a t && Rleb t b then true else scan_windows ws' t false
  end.

(** Schedule.__init__, telecom.py:289-298: (t_array, transmit_array). *)
Definition Schedule (t_seconds : R) (num_points : nat) (ws : list (R * R)) : list R * list bool :=
  let t_array := linspace 0 t_seconds num_points in
  (t_array, map (fun t => scan_windows ws t false) t_array).

Definition b2R (b : bool) : R := if b then 1 else 0.

(** self.R * visible_array * transmit_array: elementwise.  numpy stretches an array of one entry to the
    length of the other; other different lengths do not broadcast (ValueError). *)
Fixpoint bits (l : list bool) (m : list bool) : list R :=
  match l, m with
  | a :: l', b :: m' => b2R a * b2R b :: bits l' m'
  | _, _ => []
  end.
Definition stretch (l : list bool) (n : nat) : list bool := match l with [b] => repeat b n | _ => l end.

(** Link.compute_data_volume, telecom.py:254-272. *)
Definition compute_data_volume (rate : R) (vis_t : list R) (visible transmit : list bool) : res (list R) :=
  let v := stretch visible (length transmit) in let t := stretch transmit (length visible) in
  if negb (Nat.eqb (length v) (length t)) then Err ValueError
  else cumtrapz (map (fun x => rate * x) (bits v t)) vis_t 0.

(** Link.compute_data_volume as called on a Link object, telecom.py:268-272: self.R, the visibility object's
    (t_array, visible_array), the schedule object's (t_array, transmit_array). *)
Definition link_data_volume (lk : link) (visibility : list R * list bool) (schedule : list R * list bool) : res (list R) :=
  compute_data_volume (lk_R lk) (fst visibility) (snd visibility) (snd schedule).

(** round(x, 2): to the nearest hundredth, ties to the even one. *)
Definition round2 (x : R) : R :=
  let n := Int_part (100 * x) in
  let f := 100 * x - IZR n in
  let k := if Rltb f (1/2) then n else if Rltb (1/2) f then (n + 1)%Z else if Z.even n then n else (n + 1)%Z in
  IZR k / 100.
Definition round2o (x : option R) : option R := leto v := x in Some (round2 v).

(** Link.print_link_budget, telecom.py:225-252: the numbers on the printed decibel lines, with the sign printed in front
    of them, and the three lines of the summary.  The lines that are not in decibels repeat arguments and are left out. *)
Record budget := mkBudget { bg_lines : list (option R); bg_available : option R; bg_required : R; bg_margin : option R }.
Definition oneg (x : option R) : option R := leto v := x in Some (- v).
Definition print_link_budget (a : link_args) (lk : link) : budget :=
  mkBudget
    [ round2o (lk_Pt_dB lk);              (* Transmitter Power, dB *)
      oneg (Some (round2 (Lt_dB a)));     (* Transmitter Loss, dB *)
      oneg (Some (round2 (L_sc_dB a)));   (* S/C Circuit Loss, dB *)
      round2o (lk_Gt_dBi lk);             (* Transmitter Gain, dBi *)
      round2o (lk_Gr_dBi lk);             (* Receiver Gain, dBi *)
      oneg (round2o (lk_Ts_dBK lk));      (* System Noise Temp, dBK *)
      oneg (round2o (lk_Ls_dB lk));       (* Free Space Loss, dB *)
      oneg (Some (La_dB a));              (* Atmospheric Loss, dB *)
      oneg (Some (L_other_dB a));         (* Other Losses, dB *)
      round2o (oneg (lk_Ka_dB lk));       (* Boltzmann's const, dB *)
      oneg (round2o (lk_R_dBHz lk)) ]     (* Data rate, dBhz *)
    (round2o (EB_N0 lk)) (Eb_N0_req a) (round2o (EB_N0_margin lk)).
