(** C118, continued: what a reader of the result files is told, at any crash point of a campaign. *)
From Coq Require Import ZArith Reals Lra Lia List Ascii String.
Require Import Verif.Base Verif.RoundSpec Verif.PropRound64 Verif.PlanetModel Verif.AeroModel Verif.HeatModel Verif.TrajectoryModel Verif.OrbitScalarModel Verif.OrbiterModel Verif.OrbitModel
  Verif.CorridorModel Verif.GuidanceModel Verif.DragModel Verif.LauncherModel Verif.MonteModel Verif.MonteSpec Verif.MonteProofs Verif.PropMonte Verif.TextModel Verif.TextSpec Verif.PropText.
Import ListNotations.
Local Open Scope R_scope.
Local Open Scope list_scope.

Theorem C118_after_crash : forall m W S rnd N main s F0 st out pre post, main <> [] -> sane F0 -> nan_keeps (w_X W) ->
  runMonteCarlo m W S rnd N main s F0 = (st, out) -> k_ops st = pre ++ post -> F0 main = None ->
  let F := applies F0 pre in let run := flown_alone m W S rnd (ob_veh (v_obj s)) (ob_tol (v_obj s)) in
  exists xs, (length xs <= N)%nat /\
    (forall j x, nth_error xs j = Some x -> run j = Some (Ok x) /\
       forall n v t, In (n, Nums [v]) (run_table (fst x) (snd x)) -> storable v -> on_disk F (folder main j ++ [n]) t -> load_column t = Ok [v]) /\
    (forall n f t, In (n, f) summary_table -> on_disk F (main ++ [n]) t ->
       exists ys col, (ys = xs \/ exists x, run (length xs) = Some (Ok x) /\ ys = xs ++ [x]) /\ column N f ys = Nums col /\
         (Forall storable col -> load_column t = Ok col \/ half_written F (main ++ [n]) /\ cut_reading col (load_column t))).
Proof.
  intros m W S rnd N main s F0 st out pre post Hne HS HX H EP HF F run.
  destruct (C65_any_crash_point _ _ _ _ _ _ _ _ _ _ _ _ Hne HS HX H EP HF) as (xs & L & A & _ & _ & B & _). fold F run in A, B.
  exists xs. split; [exact L|]. split.
  - intros j x Hj. destruct (A j x Hj) as [R1 [_ R2]]. split; [exact R1|]. intros n v t Hi Hv Ht. unfold on_disk in Ht. rewrite (R2 n _ Hi) in Ht. subst t.
    apply C118_file. constructor; auto.
  - intros n f t Hi Ht. unfold on_disk in Ht.
    assert (G : forall ys, F (main ++ [n]) = Some (File (column N f ys)) \/ F (main ++ [n]) = Some (Torn (column N f ys)) ->
      exists col, column N f ys = Nums col /\ (Forall storable col -> load_column t = Ok col \/ half_written F (main ++ [n]) /\ cut_reading col (load_column t))).
    { intros ys [E|E]; rewrite E in Ht; unfold column in *; eexists; (split; [reflexivity|]); intros Hs.
      - left. subst t. apply C118_file. auto.
      - right. split; [eexists; exact E|]. destruct Ht as (rest & Ht). eapply C118_cut_off; eauto. }
    destruct (B n f Hi) as [[_ E]|[[_ E]|(x & R1 & _ & E)]].
    + rewrite E in Ht. contradiction.
    + destruct (G xs (or_introl E)) as (col & C1 & C2). exists xs, col. auto.
    + destruct (G (xs ++ [x])) as (col & C1 & C2); [tauto|]. exists (xs ++ [x]), col. split; eauto.
Qed.

(** Witness: two numbers and a nan as text; the last line cut off inside its number. *)
Definition of_string (s : string) : text := list_ascii_of_string s.
Lemma print_int : forall z k, (0 < z)%Z -> (z < 2 ^ 53)%Z -> (0 <= k <= 18)%Z -> (10 ^ k <= z < 10 ^ (k + 1))%Z -> sci (IZR z) = ((z * 10 ^ (18 - k))%Z, k).
Proof.
  intros z k Hz Hb Hk Hr. unfold sci.
  assert (P : 0 < IZR z) by (apply IZR_lt; lia).
  assert (M : Raux.mag_val radix10 _ (Raux.mag radix10 (IZR z)) = (k + 1)%Z).
  { apply Raux.mag_unique. rewrite Rabs_pos_eq by lra. replace (k + 1 - 1)%Z with k by lia.
    rewrite <- !Raux.IZR_Zpower by lia. change (Zaux.radix_val radix10) with 10%Z. split; [apply IZR_le|apply IZR_lt]; lia. }
  rewrite M. replace (k + 1 - 1)%Z with k by lia. rewrite Rabs_pos_eq by lra.
  rewrite <- Raux.IZR_Zpower by lia. change (Zaux.radix_val radix10) with 10%Z. rewrite <- mult_IZR.
  rewrite (Generic_fmt.Zrnd_IZR _). 
  destruct (Z.eqb_spec (z * 10 ^ (18 - k)) (10 ^ 19)) as [E|E]; [|reflexivity]. exfalso.
  assert (Q : (z * 10 ^ (18 - k) < 10 ^ (k + 1) * 10 ^ (18 - k))%Z) by (apply Zmult_lt_compat_r; [apply Z.pow_pos_nonneg; lia|lia]).
  rewrite <- Z.pow_add_r in Q by lia. replace (k + 1 + (18 - k))%Z with 19%Z in Q by lia. lia.
Qed.
Example C118_witness :
  let l := [Some 0; None; Some 125] in Forall storable l /\
  print_column l = of_string "0.000000000000000000e+00" ++ [newline] ++ of_string "nan" ++ [newline] ++ of_string "1.250000000000000000e+02" ++ [newline] /\
  load_column (print_column l) = Ok l /\
  (exists t rest, rest <> [] /\ t ++ rest = print_column l /\ load_column t = Err ValueError) /\
  (exists t rest y, rest <> [] /\ t ++ rest = print_column l /\ load_column t = Ok [Some 0; None; Some y] /\ y <> 125) /\
  (exists t rest, rest <> [] /\ t ++ rest = print_column l /\ load_column t = Ok [Some 0; None]).
Proof.
  cbv zeta. assert (S : Forall storable [Some 0; None; Some 125]).
  { repeat constructor; intros x E; inversion E; subst; apply b64_int; reflexivity. }
  assert (P : print_column [Some 0; None; Some 125] = of_string "0.000000000000000000e+00" ++ [newline] ++ of_string "nan" ++ [newline] ++ of_string "1.250000000000000000e+02" ++ [newline]).
  { unfold print_column. cbn [map concat]. unfold fmt18e. destruct (Reqb_spec 0 0) as [_|N]; [|congruence]. destruct (Reqb_spec 125 0) as [N|_]; [exfalso; lra|].
    destruct (Rltb_spec 0 0) as [N|_]; [exfalso; lra|]. destruct (Rltb_spec 125 0) as [N|_]; [exfalso; lra|].
    rewrite (print_int 125 2) by (first [lia | cbn; lia]). vm_compute. reflexivity. }
  split; [exact S|]. split; [exact P|]. split; [apply C118_file; exact S|]. split; [|split].
  - rewrite P. exists (of_string "0.000000000000000000e+00" ++ [newline] ++ of_string "nan" ++ [newline] ++ of_string "1.250000000000000000e+"), (of_string "02" ++ [newline]).
    split; [discriminate|]. split; [reflexivity|].
    change (of_string "0.000000000000000000e+00" ++ [newline] ++ of_string "nan" ++ [newline] ++ of_string "1.250000000000000000e+") with
      (of_string "0.000000000000000000e+00" ++ newline :: (of_string "nan" ++ newline :: of_string "1.250000000000000000e+")).
    assert (D : forall a, In newline (of_string a) -> existsb (Ascii.eqb newline) (of_string a) = true) by (intros a Q; apply existsb_exists; exists newline; split; auto; apply Ascii.eqb_refl).
    rewrite load_line by (discriminate || (intros Q; apply D in Q; discriminate)). rewrite load_line by (discriminate || (intros Q; apply D in Q; discriminate)).
    rewrite load_end by (discriminate || (intros Q; apply D in Q; discriminate)). reflexivity.
  - destruct (C118_misread [Some 0; None] 125) as (t & rest & y & A & B & C & D).
    + repeat constructor; intros x E; inversion E; subst; apply b64_int; reflexivity.
    + apply b64_int. reflexivity.
    + rewrite Rabs_pos_eq; lra.
    + exists t, rest, y. auto.
  - exists (print_column [Some 0; None]), (print_column [Some 125]). split; [|split].
    + rewrite print_cons. intros E. destruct (fmt18e (Some 125)) eqn:Q; [exact (fmt_not_nil _ Q)|discriminate].
    + rewrite <- print_app. reflexivity.
    + apply C118_file. repeat constructor; intros x E; inversion E; subst; apply b64_int; reflexivity.
Qed.
