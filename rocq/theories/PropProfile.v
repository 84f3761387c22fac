(** C07, continued: the values of a loaded Monte Carlo profile, and C72: setting a drag law changes nothing else. *)
From Coq Require Import List.
Require Import Verif.Base Verif.Numpy Verif.TableSpec Verif.NumpyProofs Verif.PlanetModel Verif.AeroModel.
Import ListNotations.
Local Open Scope R_scope.

(** The table of altitude and density a profile is made of. *)
Definition profile_table (density_of : mcrow -> R) (block : list mcrow) : list (R * R) := map (fun w => (mc_h w, density_of w)) block.

(** At the altitude of a row of the profile the density is that row's; between rows it is on the straight line between the
    neighbouring rows; outside the profile it is zero.  With the perturbation (5) and without (6). *)
Theorem C07_profile_values : forall rows s npos i, let block := mc_block npos i rows in NoDup (map mc_h block) -> block <> [] ->
  (forall w, In w block -> loadAtmosphereModel5 rows s npos i (mc_h w) = Ok (mc_density5 s w) /\ loadAtmosphereModel6 rows s npos i (mc_h w) = Ok (mc_density6 s w)) /\
  (forall a b h, In a block -> In b block -> mc_h a <= h <= mc_h b -> exists y5 y6,
     loadAtmosphereModel5 rows s npos i h = Ok y5 /\ Interpolates (profile_table (mc_density5 s) block) h y5 /\
     loadAtmosphereModel6 rows s npos i h = Ok y6 /\ Interpolates (profile_table (mc_density6 s) block) h y6) /\
  (forall h, (forall w, In w block -> h < mc_h w) \/ (forall w, In w block -> mc_h w < h) ->
     loadAtmosphereModel5 rows s npos i h = Ok 0 /\ loadAtmosphereModel6 rows s npos i h = Ok 0).
Proof.
  intros rows s npos i block Hnd Hne. unfold loadAtmosphereModel5, loadAtmosphereModel6. fold block.
  assert (Hf : forall g : mcrow -> R, map fst (map (fun w => (mc_h w, g w)) block) = map mc_h block) by (intros g; rewrite map_map; reflexivity).
  assert (Hin : forall (g : mcrow -> R) w, In w block -> In (mc_h w, g w) (map (fun w => (mc_h w, g w)) block)) by (intros g w Hw; apply (in_map (fun w => (mc_h w, g w)) block w Hw)).
  assert (Hi : forall (g : mcrow -> R) a b h, In a block -> In b block -> mc_h a <= h <= mc_h b -> exists y, interp1d (map (fun w => (mc_h w, g w)) block) 0 0 h = Ok y /\ Interpolates (map (fun w => (mc_h w, g w)) block) h y).
  { intros g a b h Ha Hb Hh. apply interp1d_inside; [rewrite Hf; exact Hnd|]. exists (mc_h a, g a), (mc_h b, g b). split; [apply Hin; auto|]. split; [apply Hin; auto|]. exact Hh. }
  assert (Hn : forall (g : mcrow -> R) w, In w block -> interp1d (map (fun w => (mc_h w, g w)) block) 0 0 (mc_h w) = Ok (g w)).
  { intros g w Hw. destruct (Hi g w w (mc_h w) Hw Hw ltac:(lra)) as (y & -> & Hy). f_equal.
    apply (Interpolates_unique (map (fun w => (mc_h w, g w)) block) (mc_h w)); [rewrite Hf; exact Hnd|exact Hy|left; apply Hin; auto]. }
  assert (Ho : forall (g : mcrow -> R) h, (forall w, In w block -> h < mc_h w) \/ (forall w, In w block -> mc_h w < h) -> interp1d (map (fun w => (mc_h w, g w)) block) 0 0 h = Ok 0).
  { intros g h H. assert (Hne' : map (fun w => (mc_h w, g w)) block <> []) by (intros E; apply map_eq_nil in E; auto).
    destruct H as [H|H]; [apply interp1d_left|apply interp1d_right]; auto; intros p Hp; apply in_map_iff in Hp; destruct Hp as (w & <- & Hw); cbn [fst]; auto. }
  split; [intros w Hw; split; apply Hn; auto|]. split.
  - intros a b h Ha Hb Hh. destruct (Hi (mc_density5 s) a b h Ha Hb Hh) as (y5 & E5 & I5). destruct (Hi (mc_density6 s) a b h Ha Hb Hh) as (y6 & E6 & I6).
    exists y5, y6. split; [exact E5|]. split; [exact I5|]. split; [exact E6|exact I6].
  - intros h H. split; apply Ho; auto.
Qed.

(** Setting a drag law sets the drag law. *)
Theorem C72_setting_changes_nothing_else : forall V f, let W := setCDMachFunction V f in
  vh_CDMach W = Some f /\
  (vh_mass W, vh_beta W, vh_LD W, vh_A W, vh_alpha W, vh_RN W) = (vh_mass V, vh_beta V, vh_LD V, vh_A V, vh_alpha V, vh_RN V) /\
  (vh_planet W, vh_atm W, vh_user W) = (vh_planet V, vh_atm V, vh_user V) /\ (vh_Abar W, vh_mbar W, vh_CD W, vh_CL W) = (vh_Abar V, vh_mbar V, vh_CD V, vh_CL V).
Proof. intros V f W. split; [reflexivity|]. split; [reflexivity|]. split; reflexivity. Qed.
