(** Model of a session with guided flights: any sequence of the calls of SessionModel.v, of the guidance setters and of
    guided flights on one Vehicle object of /repo/AMAT/vehicle.py.  Simplifications: the three guidance setters have
    been called at least once before (their attributes exist); after a flight that raises, the reference array keeps
    its earlier value (no answer depends on it, as C100 shows). *)
From Coq Require Import String List.
Require Import Verif.Base Verif.Numpy Verif.PlanetModel Verif.AeroModel Verif.HeatModel Verif.TrajectoryModel Verif.OrbitScalarModel Verif.OrbiterModel
  Verif.CorridorModel Verif.GuidanceModel Verif.DragModel Verif.SessionModel.

(** The object with its guidance attributes and self.hdotref_array. *)
Record gsess := mkGS { gs_sess : sess; gs_P : gparams; gs_href : list (option R) }.

Inductive greq :=
| Plain (c : req)
| SetMaxRollRate (r : R)
| SetTargetOrbitParams (peri apo tol : R)
| SetEquilibriumGlideParams (Ghdot Gq vswitch lowAlt : R) (numLow : nat) (hdotthr : R)
| SetDragEntryPhaseParams (vswitch lowAlt : R) (numLow : nat) (hdotthr : R)
| PropogateGuidedEntry (two : bool) (timeStep dt maxTime : R)
| PropogateGuidedEntryD (two : bool) (timeStepEntry timeStepExit dt maxTime : R).

(** What a guided flight lets the user read: the histories after the first phase and at the end (attributes _eg and
    _full), the step arrays, and the reported orbit. *)
Record seen := mkSeen { sn_hist : hist; sn_t : list R; sn_delta : list (option R); sn_hdot : list R; sn_hddot : list (option R); sn_qref : list ext;
  sn_q : list R; sn_h : list R; sn_acc : list (option R); sn_drag : list (option R); sn_dens : list (option R) }.
Definition see (s : gst) : seen :=
  let a := s_arr s in mkSeen (s_hist s) (a_t a) (a_delta a) (a_hdot a) (a_hddot a) (a_qref a) (a_q a) (a_h a) (a_acc a) (a_drag a) (a_dens a).
Inductive gans :=
| Answer (a : ans)
| Flown (first whole : seen) (r : report).

Definition gflight (s : gsess) (q : option (vobj * res (gst * gst * report))) : option (gsess * res gans) :=
  match q with
  | None => None
  | Some (o, Err e) => Some (mkGS (mkSess o (se_dm (gs_sess s))) (gs_P s) (gs_href s), Err e)
  | Some (o, Ok (a, b, r)) => Some (mkGS (mkSess o (se_dm (gs_sess s))) (gs_P s) (a_hdotref (s_arr b)), Ok (Flown (see a) (see b) r))
  end.
(** One call.  setMaxRollRate vehicle.py:4528, setTargetOrbitParams 4686-4688, setEquilibriumGlideParams 4785-4790,
    setDragEntryPhaseParams 5974-5977 (four attributes shared with the former), guided flights 5634-5668, 7253-7291. *)
Definition gserve (E : engine) (X : gext) (fuel : nat) (c : greq) (s : gsess) : option (gsess * res gans) :=
  let P := gs_P s in let set P := Some (mkGS (gs_sess s) P (gs_href s), Ok (Answer Nothing)) in
  let o := se_obj (gs_sess s) in
  match c with
  | Plain c => match serve E fuel c (gs_sess s) with
               | None => None
               | Some (s', a) => Some (mkGS s' P (gs_href s), rmap Answer a)
               end
  | SetMaxRollRate r => set (mkG r (g_Ghdot P) (g_Gq P) (g_vswitch P) (g_lowAlt P) (g_numLow P) (g_hdotthr P) (g_peri P) (g_apo P) (g_apotol P))
  | SetTargetOrbitParams p a t => set (mkG (g_rate P) (g_Ghdot P) (g_Gq P) (g_vswitch P) (g_lowAlt P) (g_numLow P) (g_hdotthr P) p a t)
  | SetEquilibriumGlideParams gh gq v l n h => set (mkG (g_rate P) gh gq v l n h (g_peri P) (g_apo P) (g_apotol P))
  | SetDragEntryPhaseParams v l n h => set (mkG (g_rate P) (g_Ghdot P) (g_Gq P) v l n h (g_peri P) (g_apo P) (g_apotol P))
  | PropogateGuidedEntry two ts dt mt => gflight s (propogateGuidedEntry two E X P ts dt mt fuel o (gs_href s))
  | PropogateGuidedEntryD two te tx dt mt => gflight s (propogateGuidedEntryD two E X (se_dm (gs_sess s)) P te tx dt mt fuel o (gs_href s))
  end.
Fixpoint grun (E : engine) (X : gext) (fuel : nat) (l : list greq) (s : gsess) : option (gsess * list (res gans)) :=
  match l with
  | [] => Some (s, [])
  | c :: l =>
      match gserve E X fuel c s with
      | None => None
      | Some (s, a) => match grun E X fuel l s with None => None | Some (s, as_) => Some (s, a :: as_) end
      end
  end.
