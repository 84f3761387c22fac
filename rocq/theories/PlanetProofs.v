(** Lemmas about the planet model. *)
Require Import Verif.Base Verif.Numpy Verif.TableSpec Verif.NumpyProofs Verif.PlanetModel.
From Coq Require Import Permutation String.
From Coq Require Import List.

Definition catalogue : list planet := [VENUS; EARTH; MARS; JUPITER; SATURN; TITAN; URANUS; NEPTUNE].
Definition names : list string :=
  ["VENUS"; "EARTH"; "MARS"; "JUPITER"; "SATURN"; "TITAN"; "URANUS"; "NEPTUNE"]%string.

Ltac each_planet H :=
  unfold Planet in H;
  repeat match type of H with
  | context [string_dec ?a ?b] => destruct (string_dec a b)
  end; [inversion H; subst; clear H ..| discriminate H].

Lemma Planet_cases : forall name p, Planet name = Ok p -> In p catalogue /\ ID p = name.
Proof. intros name p H. each_planet H; simpl; split; auto 10. Qed.

Lemma Planet_ok : forall p, In p catalogue -> Planet (ID p) = Ok p.
Proof. intros p H; simpl in H; decompose [or] H; subst; try contradiction; reflexivity. Qed.

Lemma Planet_facts : forall name p, Planet name = Ok p ->
  0 < RP p /\ 0 < GM p /\ 0 < rho0 p /\ 1 < CPCV p /\ 0 < h_trap p < h_skip p /\
  h_thres p = h_skip p /\ h_skip p < RP p /\ OMEGA p <> 0 /\ 0 < J2 p.
Proof. intros name p H. each_planet H; simpl; repeat split; lra. Qed.

Lemma Vref_pos : forall name p, Planet name = Ok p -> 0 < Vref p.
Proof.
  intros name p H. destruct (Planet_facts _ _ H) as (A & B & _).
  apply sqrt_lt_R0. apply Rdiv_lt_0_compat; auto.
Qed.
Lemma tau_pos : forall name p, Planet name = Ok p -> 0 < tau p.
Proof.
  intros name p H. destruct (Planet_facts _ _ H) as (A & B & _).
  apply Rdiv_lt_0_compat; auto. eapply Vref_pos; eauto.
Qed.

(** Pointwise order of ordinates is inherited by the interpolant. *)
Lemma interp1d_le : forall (A : Type) (hh f g : A -> R) (blk : list A) lo hi x y y',
  NoDup (map hh blk) -> (forall w, In w blk -> f w <= g w) ->
  interp1d (map (fun w => (hh w, f w)) blk) lo hi x = Ok y ->
  interp1d (map (fun w => (hh w, g w)) blk) lo hi x = Ok y' -> y <= y'.
Proof.
  intros A hh f g blk lo hi x y y' Hnd Hfg Hy Hy'.
  set (tf := map (fun w => (hh w, f w)) blk) in *. set (tg := map (fun w => (hh w, g w)) blk) in *.
  assert (Nf : NoDup (map fst tf)) by (unfold tf; rewrite map_map; simpl; auto).
  assert (Ng : NoDup (map fst tg)) by (unfold tg; rewrite map_map; simpl; auto).
  assert (Hne : blk <> []) by (intros ->; discriminate Hy).
  assert (Hcases : (forall w, In w blk -> x < hh w) \/ (forall w, In w blk -> hh w < x) \/
                   exists a b, In a blk /\ In b blk /\ hh a <= x <= hh b).
  { clear -Hne. induction blk as [|a blk IH]; [congruence|].
    destruct blk as [|b blk].
    - destruct (Rlt_dec x (hh a)); [left; intros w [<-|[]]; auto|].
      destruct (Rlt_dec (hh a) x); [right; left; intros w [<-|[]]; auto|].
      right; right; exists a, a; simpl; repeat split; auto; lra.
    - destruct IH as [IH|[IH|IH]]; [discriminate| | |].
      + destruct (Rlt_dec x (hh a)); [left; intros w [<-|Hw]; auto|].
        right; right; exists a, b. specialize (IH b (or_introl eq_refl)). simpl; repeat split; auto; lra.
      + destruct (Rlt_dec (hh a) x); [right; left; intros w [<-|Hw]; auto|].
        right; right; exists b, a. specialize (IH b (or_introl eq_refl)). simpl; repeat split; auto; lra.
      + right; right. destruct IH as (c & d & Hc & Hd & Hx). exists c, d. split; [right; auto|]. split; [right; auto|lra]. }
  assert (Hin : forall (k : A -> R) w, In w blk -> In (hh w, k w) (map (fun w => (hh w, k w)) blk)).
  { intros k w Hw. apply (in_map (fun w => (hh w, k w))); auto. }
  assert (Hinv : forall (k : A -> R) p, In p (map (fun w => (hh w, k w)) blk) -> exists w, In w blk /\ p = (hh w, k w)).
  { intros k p Hp. apply in_map_iff in Hp. destruct Hp as (w & <- & Hw). eauto. }
  assert (Hnf : tf <> []) by (destruct blk; [congruence|discriminate]).
  assert (Hng : tg <> []) by (destruct blk; [congruence|discriminate]).
  destruct Hcases as [Hl|[Hr|(a & b & Ha & Hb & Hx)]].
  - rewrite interp1d_left in Hy, Hy'; auto; [inversion Hy; inversion Hy'; subst; lra| |];
      intros p Hp; apply Hinv in Hp; destruct Hp as (w & Hw & ->); simpl; auto.
  - rewrite interp1d_right in Hy, Hy'; auto; [inversion Hy; inversion Hy'; subst; lra| |];
      intros p Hp; apply Hinv in Hp; destruct Hp as (w & Hw & ->); simpl; auto.
  - destruct (interp1d_inside tf lo hi x Nf) as (z & Hz & HI).
    { exists (hh a, f a), (hh b, f b). repeat split; try apply Hin; auto; simpl; lra. }
    destruct (interp1d_inside tg lo hi x Ng) as (z' & Hz' & HI').
    { exists (hh a, g a), (hh b, g b). repeat split; try apply Hin; auto; simpl; lra. }
    rewrite Hy in Hz; inversion Hz; subst z. rewrite Hy' in Hz'; inversion Hz'; subst z'. clear Hz Hz'.
    destruct HI as [Hnode|(p & q & (Hp & Hq & Hlt & Hno) & Hseg & Heq)].
    + apply Hinv in Hnode. destruct Hnode as (w & Hw & E). inversion E; subst.
      assert (y' = g w).
      { eapply Interpolates_unique; [exact Ng|exact HI'|]. left. apply Hin; auto. }
      subst; auto.
    + apply Hinv in Hp; apply Hinv in Hq.
      destruct Hp as (w1 & Hw1 & ->), Hq as (w2 & Hw2 & ->). simpl in *.
      set (k := (x - hh w1) / (hh w2 - hh w1)).
      assert (Hk : 0 <= k <= 1).
      { unfold k; split; [apply Rmult_le_pos; [lra|left; apply Rinv_0_lt_compat; lra]|].
        apply (Rmult_le_reg_r (hh w2 - hh w1)); [lra|]. unfold Rdiv; rewrite Rmult_assoc, Rinv_l; lra. }
      assert (y' = g w1 + (g w2 - g w1) * k).
      { eapply Interpolates_unique; [exact Ng|exact HI'|]. right.
        exists (hh w1, g w1), (hh w2, g w2). split.
        - split; [apply Hin; auto|]. split; [apply Hin; auto|]. simpl; split; auto.
          intros r Hr. apply Hinv in Hr. destruct Hr as (w & Hw & ->). simpl.
          apply (Hno (hh w, f w)). apply Hin; auto.
        - split; simpl; [lra|]. unfold k. field. lra. }
      assert (y = f w1 + (f w2 - f w1) * k).
      { apply (Rmult_eq_reg_r (hh w2 - hh w1)); [|lra]. unfold k. field_simplify; [|lra]. lra. }
      pose proof (Hfg _ Hw1); pose proof (Hfg _ Hw2). subst. nra.
Qed.

(** Blocks of the Monte Carlo file. *)
Lemma skipn_skipn' : forall (A : Type) n m (l : list A), skipn n (skipn m l) = skipn (m + n) l.
Proof.
  intros A n m; revert n; induction m; intros n l; simpl; auto. destruct l; auto. destruct n; auto.
Qed.
Lemma mc_block_tile : forall (A : Type) npos n (rows : list A), length rows = (n * npos)%nat ->
  concat (map (fun i => mc_block npos i rows) (seq 1 n)) = rows.
Proof.
  intros A npos n. induction n as [|n IH]; intros rows Hl.
  - destruct rows; [reflexivity|discriminate].
  - simpl seq. rewrite <- (seq_shift n 1). simpl map. simpl concat.
    rewrite map_map.
    rewrite (map_ext (fun x => mc_block npos (S x) rows) (fun x => firstn npos (skipn (x * npos) rows))).
    2:{ intros x; unfold mc_block. f_equal. f_equal. lia. }
    unfold mc_block at 1. simpl (1 - 1)%nat. simpl (0 * npos)%nat. rewrite skipn_O.
    transitivity (firstn npos rows ++ skipn npos rows); [|apply firstn_skipn]. f_equal.
    rewrite <- (IH (skipn npos rows)) at 1; [|rewrite skipn_length, Hl; simpl; lia].
    f_equal. apply map_ext_in. intros i Hi. apply in_seq in Hi. unfold mc_block.
    rewrite skipn_skipn'. f_equal. f_equal. 
    replace i with (S (i - 1)) at 1 by lia. simpl. lia.
Qed.
