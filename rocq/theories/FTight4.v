(** Final lemmas of C57 and C80 that were added after the random mutation runs. *)
From Coq Require Import ZArith String List Bool Lia QArith Qcanon.
From Verif Require Import PyBase PyFacts Lattice Base Interact Spin Prob Dav Files Display Emb Post Phase Spec SpecTJ SpinDefs ProbDefs DavDefs PostDefs
  FilesDefs FProb PFiles FPost FPlots.
Import ListNotations.
Open Scope Z_scope.

(** ** C80 *)
Lemma quiet_tail : forall (f : Z -> plots) l ds, (forall a, In a l -> f a = ([], Ok tt)) ->
  fold_left (fun st a => and_then st (fun _ => f a)) l (ds, Ok tt) = (ds, Ok tt).
Proof.
  intros f l. induction l as [|a l IH]; intros ds H; [reflexivity|]. cbn [fold_left and_then]. rewrite (H a (or_introl eq_refl)), app_nil_r. apply IH. intros b Hb. apply H. now right.
Qed.
Lemma Forall2_at : forall A B (R : A -> B -> Prop) l l' k x, Forall2 R l l' -> nth_error l k = Some x -> exists y, nth_error l' k = Some y /\ R x y.
Proof.
  intros A B R l l' k x F. revert k. induction F as [|a b l l' H F IH]; intros [|k] E; try discriminate; [injection E as ->; exists b; auto | exact (IH k E)].
Qed.
Lemma Forall2_len : forall A B (R : A -> B -> Prop) l l', Forall2 R l l' -> length l = length l'.
Proof. intros A B R l l' F. induction F; cbn; congruence. Qed.

Lemma C80_pictures_pf : forall P fs d i dc st, let c := d_conf (dc_data dc) in let w := nbh c * nblocs_side c in let h := nbv c * nblocs_side c in let vs := e_vects (dc_eig dc) in
  (forall x y z, exists u, interp2d P x y z = Ok u) ->
  p_electrons i = true -> p_spectrum i = false -> p_holes i = false -> p_determinants i = false -> p_neel i = false -> p_static i = false -> p_dynamic i = false ->
  load_data fs (result_name (d_conf d) (s_of (d_bools d))) = Ok dc -> 0 < nalpha (d_conf d) * nbeta (d_conf d) ->
  listed (nsites c) (nholes c) (nbeta c) (dc_dets dc) st -> lattice_type c = Periodic -> 0 <= w -> 0 <= h -> nsites c = w * h ->
  Forall (fun v => length v = length (dc_dets dc) /\ inner v v = 1%Qc) vs -> 0 <= p_excited i ->
  exists pictures, generate_plots_configuration P fs d i = (pictures, Ok tt) /\ zlen pictures = Z.min (p_excited i) (zlen vs) /\
    forall k v, (k < length pictures)%nat -> nth_error vs k = Some v ->
    exists name up down charge, nth_error pictures k = Some (DElectrons name up down charge) /\
    forall x y, 0 <= x < w -> 0 <= y < h -> let at_site m := nth (Z.to_nat x) (nth (Z.to_nat (h - 1 - y)) m []) 0%Qc in
      at_site up = weight st v Up (site w (x, y)) /\ at_site down = weight st v Down (site w (x, y)) /\
      at_site charge = (weight st v Up (site w (x, y)) - weight st v Down (site w (x, y)))%Qc.
Proof.
  intros P fs d i dc st c w h vs HI E1 E2 E3 E4 E5 E6 E7 HL Hab Hd Hp Hw Hh Hn HV He.
  set (shows := fun (k : Z) (x : drawing) => forall v, nth_error vs (Z.to_nat k) = Some v ->
    exists name up down charge, x = DElectrons name up down charge /\
    forall x y, 0 <= x < w -> 0 <= y < h -> let at_site m := nth (Z.to_nat x) (nth (Z.to_nat (h - 1 - y)) m []) 0%Qc in
      at_site up = weight st v Up (site w (x, y)) /\ at_site down = weight st v Down (site w (x, y)) /\
      at_site charge = (weight st v Up (site w (x, y)) - weight st v Down (site w (x, y)))%Qc).
  set (f := fun k => drawn_all (save_electron_probability_lattice P dc k)).
  set (top := Z.min (p_excited i) (zlen vs)).
  assert (T : 0 <= top) by (unfold top, zlen; lia).
  destruct (plots_fold f shows (zrange 0 top) nothing []) as (xs & X & F); [|reflexivity|].
  { intros k Hk. apply in_zrange in Hk. assert (Lk : (Z.to_nat k < length vs)%nat) by (unfold top, zlen in Hk; lia).
    destruct (nth_error vs (Z.to_nat k)) as [v|] eqn:Ev; [|apply nth_error_None in Ev; lia].
    pose proof (proj1 (Forall_forall _ _) HV v (nth_error_In _ _ Ev)) as [V1 V2].
    destruct (C80_charge_pf P dc st k v HI Hd Hp Hw Hh Hn ltac:(lia) Ev V1 V2) as (name & up & down & charge & Q & R).
    exists (DElectrons name up down charge). unfold f. rewrite Q. split; [reflexivity|]. intros v' Ev'. assert (v' = v) by congruence. subst v'. exists name, up, down, charge. split; [reflexivity | exact R]. }
  exists xs. assert (Lx : zlen xs = top). { unfold zlen. rewrite <- (Forall2_len _ _ _ _ _ F), zrange_length. lia. }
  split; [|split; [exact Lx|]].
  - unfold generate_plots_configuration. cbv zeta. rewrite C73_run_file_pf, HL, E5, E6, E7. cbn [orb]. unfold plot_everything. rewrite E1, E2, E3, E4, E5, E6, E7, andb_false_r, (proj2 (Z.ltb_lt _ _) Hab). cbn [andb].
    replace (zrange 0 (p_excited i)) with (zrange 0 top ++ zrange top (p_excited i)).
    2:{ symmetry. apply zrange_app. unfold top in *. lia. }
    rewrite fold_left_app. fold f. change (fun st0 k => and_then st0 (fun _ => drawn_all (save_electron_probability_lattice P dc k))) with (fun st0 k => and_then st0 (fun _ => f k)). rewrite X. cbn [app].
    rewrite quiet_tail; [cbn; rewrite !app_nil_r; reflexivity|].
    intros k Hk. apply in_zrange in Hk. unfold f. rewrite C80_absent_pf; [reflexivity|]. fold vs. unfold top in Hk. lia.
  - intros k v Hk Ev. destruct (Forall2_at _ _ _ _ _ k (Z.of_nat k) F) as (x & Nx & Sx).
    { rewrite <- (Nat2Z.id k) at 1. apply FProb.zrange_nth. unfold zlen in Lx. lia. }
    destruct (Sx v ltac:(now rewrite Nat2Z.id)) as (name & up & down & charge & -> & R). exists name, up, down, charge. split; [exact Nx | exact R].
Qed.

(** ** C57 *)
Lemma C57_outside_pf : forall c dim ham x k d, ~ (0 <= k < dim) -> add_static c true dim ham x k d = Err ValueError.
Proof.
  intros c dim ham x k d H. unfold add_static, add_coo. destruct (Z.leb_spec 0 k); [|reflexivity]. destruct (Z.ltb_spec k dim); [lia | reflexivity].
Qed.
Lemma C59_outside_pf : forall dim ham x threshold i j, ~ (0 <= i < dim /\ 0 <= j < dim) ->
  add_both dim ham x threshold i j = if qleb threshold (qabs x) then Err ValueError else Ok ham.
Proof.
  intros dim ham x threshold i j H. unfold add_both. destruct (qleb threshold (qabs x)); [|reflexivity]. unfold add_coo.
  destruct (Z.leb_spec 0 i); [|reflexivity]. destruct (Z.ltb_spec i dim); [|reflexivity]. destruct (Z.leb_spec 0 j); [|reflexivity]. destruct (Z.ltb_spec j dim); [lia | reflexivity].
Qed.
