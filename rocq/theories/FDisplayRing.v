(** The display of a rectangle in its ring (C72). *)
From Coq Require Import ZArith List Bool Lia.
From Verif Require Import PyBase PyFacts Lattice Base Spec PHash PBasis PSites Display DisplayDefs FDisplay.
Import ListNotations.
Open Scope Z_scope.

Lemma C72_site_pf : forall w h x, 1 <= w -> 1 <= h -> 0 <= x < w * h + 2 * (w + h) -> ringed_site w h (ringed_point w h x) = x.
Proof.
  intros w h x Hw Hh Hx. unfold ringed_point. destruct (Z.ltb_spec x (w * h)).
  - unfold point, ringed_site. pose proof (Z.div_mod x w). pose proof (Z.mod_pos_bound x w).
    assert (0 <= x / w < h) by (split; [apply Z.div_pos; lia | apply Z.div_lt_upper_bound; lia]).
    destruct (Z.eqb_spec (x / w) (-1)); [lia|]. destruct (Z.eqb_spec (x / w) h); [lia|]. destruct (Z.eqb_spec (x mod w) w); [lia|].
    destruct (Z.eqb_spec (x mod w) (-1)); [lia|]. unfold site. cbn [fst snd]. lia.
  - unfold ring_point, ringed_site. destruct (Z.ltb_spec (x - w * h) w); [cbn [Z.eqb Z.opp Pos.eqb]; lia|].
    destruct (Z.ltb_spec (x - w * h) (w + h)).
    { destruct (Z.eqb_spec (x - w * h - w) (-1)); [lia|]. destruct (Z.eqb_spec (x - w * h - w) h); [lia|]. rewrite Z.eqb_refl. lia. }
    destruct (Z.ltb_spec (x - w * h) (2 * w + h)).
    { destruct (Z.eqb_spec h (-1)); [lia|]. rewrite Z.eqb_refl. lia. }
    destruct (Z.eqb_spec (h - 1 - (x - w * h - (2 * w + h))) (-1)); [lia|]. destruct (Z.eqb_spec (h - 1 - (x - w * h - (2 * w + h))) h); [lia|].
    destruct (Z.eqb_spec (-1) w); [lia|]. cbn [Z.eqb Pos.eqb]. lia.
Qed.

(** where each site is drawn *)
Lemma drawn_at : forall w h x, 1 <= w -> 1 <= h -> 0 <= x < w * h + 2 * (w + h) ->
  let '(X, Y) := ringed_point w h x in -1 <= X <= w /\ -1 <= Y <= h /\ ((Y = -1 \/ Y = h) -> 0 <= X < w).
Proof.
  intros w h x Hw Hh Hx. unfold ringed_point. destruct (Z.ltb_spec x (w * h)).
  - unfold point. pose proof (Z.div_mod x w). pose proof (Z.mod_pos_bound x w).
    assert (0 <= x / w < h) by (split; [apply Z.div_pos; lia | apply Z.div_lt_upper_bound; lia]). lia.
  - unfold ring_point. destruct (Z.ltb_spec (x - w * h) w); [lia|]. destruct (Z.ltb_spec (x - w * h) (w + h)); [lia|].
    destruct (Z.ltb_spec (x - w * h) (2 * w + h)); lia.
Qed.

Lemma C72_point_pf : forall w h s x, 1 <= w -> 1 <= h -> 0 <= x < w * h + 2 * (w + h) ->
  let '(X, Y) := ringed_point w h x in
  nth (Z.to_nat (3 * (X + 1))) (nth (Z.to_nat (2 * (h - Y))) (ringed_lines w h s) []) 0 = arrow_of (s x).
Proof.
  intros w h s x Hw Hh Hx. pose proof (drawn_at w h x Hw Hh Hx) as B. pose proof (C72_site_pf w h x Hw Hh Hx) as E.
  destruct (ringed_point w h x) as [X Y]. destruct B as (BX & BY & BC).
  unfold ringed_lines. set (line := fun r => map (ringed_char w h s r) (upto (ringed_length w h r))).
  rewrite (nth_indep _ [] (line 0)) by (rewrite map_length, upto_zrange, zrange_length; lia).
  rewrite map_nth. replace (nth (Z.to_nat (2 * (h - Y))) (upto (2 * h + 3)) 0) with (2 * (h - Y)).
  2:{ unfold upto. rewrite (map_nth Z.of_nat _ 0%nat), seq_nth by lia. lia. }
  assert (L : 3 * (X + 1) < ringed_length w h (2 * (h - Y))).
  { unfold ringed_length. destruct (Z.eqb_spec (2 * (h - Y)) 0), (Z.eqb_spec (2 * (h - Y)) (2 * h + 2)), (Z.eqb_spec (2 * (h - Y)) 1), (Z.eqb_spec (2 * (h - Y)) (2 * h + 1)); cbn [orb]; lia. }
  unfold line. rewrite (nth_indep _ 0 (ringed_char w h s (2 * (h - Y)) 0)) by (rewrite map_length, upto_zrange, zrange_length; lia).
  rewrite map_nth. unfold upto. rewrite (map_nth Z.of_nat _ 0%nat), seq_nth by lia. cbn [Nat.add]. rewrite Z2Nat.id by lia.
  unfold ringed_char. destruct (even_double (h - Y)) as [-> _]. destruct (half_double (h - Y)) as [-> _].
  rewrite (Z.mul_comm 3), Z.mod_mul, Z.div_mul by lia. cbn [Z.eqb]. replace (h - (h - Y)) with Y by lia. replace (X + 1 - 1) with X by lia.
  destruct (Z.eqb_spec X (-1)); [|rewrite andb_false_r; now rewrite E].
  destruct (Z.eqb_spec Y (-1)); [lia|]. destruct (Z.eqb_spec Y h); [lia|]. cbn [orb andb]. now rewrite E.
Qed.

Section Lines.
Variables (w h : Z) (s : occupation).
Hypotheses (Hw : 1 <= w) (Hh : 1 <= h).

Definition line (r : Z) : list Z := map (ringed_char w h s r) (upto (ringed_length w h r)).
Definition dashed (f : Z -> Z) : list Z := concat (map (fun x => [arrow_of (s (f x)); 45; 45]) (zrange 0 (w - 1))).

Lemma line_edge : forall r y, y = h \/ y = -1 -> r = 2 * (h - y) ->
  line r = [32; 32; 32] ++ dashed (fun x => ringed_site w h (x, y)) ++ [arrow_of (s (ringed_site w h (w - 1, y)))].
Proof.
  intros r y Hy ->. unfold line, ringed_length. replace ((2 * (h - y) =? 0) || (2 * (h - y) =? 2 * h + 2)) with true.
  2:{ symmetry. destruct Hy as [-> | ->]; [now replace (2 * (h - h)) with 0 by lia | rewrite (proj2 (Z.eqb_eq (2 * (h - -1)) (2 * h + 2))) by lia; apply orb_true_r]. }
  rewrite upto_zrange. transitivity (map (fun k => if k mod 3 =? 0 then (fun t => if t =? 0 then 32 else arrow_of (s (ringed_site w h (t - 1, y)))) (k / 3)
     else (fun t => if (1 <=? t) && (t <? w) then 45 else 32) (k / 3)) (zrange 0 (3 * w + 1))).
  { apply map_ext_in. intros k I. unfold ringed_char. destruct (even_double (h - y)) as [-> _]. destruct (half_double (h - y)) as [-> _].
    replace (h - (h - y)) with y by lia. destruct (k mod 3 =? 0).
    - replace ((y =? -1) || (y =? h)) with true by (symmetry; destruct Hy as [-> | ->]; [rewrite Z.eqb_refl; apply orb_true_r | reflexivity]).
      cbn [andb]. destruct (Z.eqb_spec (k / 3 - 1) (-1)), (Z.eqb_spec (k / 3) 0); try lia; reflexivity.
    - destruct (Z.leb_spec 0 (k / 3 - 1)), (Z.leb_spec 1 (k / 3)), (Z.ltb_spec (k / 3 - 1 + 1) w), (Z.ltb_spec (k / 3) w); try lia; reflexivity. }
  rewrite (triples_end (fun t => if t =? 0 then 32 else arrow_of (s (ringed_site w h (t - 1, y)))) (fun t => if (1 <=? t) && (t <? w) then 45 else 32)) by lia.
  rewrite zrange_cons by lia. cbn [map concat app]. change (0 =? 0) with true. change ((1 <=? 0) && (0 <? w)) with false. cbn match. do 3 f_equal.
  destruct (Z.eqb_spec w 0); [lia|]. f_equal. unfold dashed.
  replace (zrange (0 + 1) w) with (map (fun x => x + 1) (zrange 0 (w - 1))) by (rewrite zrange_shift; f_equal; lia).
  rewrite map_map. f_equal. apply map_ext_in. intros x I. apply in_zrange in I. destruct (Z.eqb_spec (x + 1) 0); [lia|].
  destruct (Z.leb_spec 1 (x + 1)); [|lia]. destruct (Z.ltb_spec (x + 1) w); [|lia]. cbn [andb]. now replace (x + 1 - 1) with x by lia.
Qed.

Lemma line_row : forall r y, 0 <= y < h -> r = 2 * (h - y) ->
  line r = [arrow_of (s (ringed_site w h (-1, y))); 32; 32] ++ dashed (fun x => ringed_site w h (x, y)) ++
    [arrow_of (s (ringed_site w h (w - 1, y))); 32; 32] ++ [arrow_of (s (ringed_site w h (w, y)))].
Proof.
  intros r y Hy ->. unfold line, ringed_length.
  destruct (Z.eqb_spec (2 * (h - y)) 0); [lia|]. destruct (Z.eqb_spec (2 * (h - y)) (2 * h + 2)); [lia|]. cbn [orb].
  destruct (Z.eqb_spec (2 * (h - y)) 1); [lia|]. destruct (Z.eqb_spec (2 * (h - y)) (2 * h + 1)); [lia|]. cbn [orb].
  rewrite upto_zrange. transitivity (map (fun k => if k mod 3 =? 0 then (fun t => arrow_of (s (ringed_site w h (t - 1, y)))) (k / 3)
     else (fun t => if (1 <=? t) && (t <? w) then 45 else 32) (k / 3)) (zrange 0 (3 * w + 4))).
  { apply map_ext_in. intros k I. unfold ringed_char. destruct (even_double (h - y)) as [-> _]. destruct (half_double (h - y)) as [-> _].
    replace (h - (h - y)) with y by lia. destruct (k mod 3 =? 0).
    - destruct (Z.eqb_spec y (-1)), (Z.eqb_spec y h); try lia. reflexivity.
    - destruct (Z.leb_spec 0 (k / 3 - 1)), (Z.leb_spec 1 (k / 3)), (Z.ltb_spec (k / 3 - 1 + 1) w), (Z.ltb_spec (k / 3) w); try lia; reflexivity. }
  replace (3 * w + 4) with (3 * (w + 1) + 1) by lia.
  rewrite (triples_end (fun t => arrow_of (s (ringed_site w h (t - 1, y)))) (fun t => if (1 <=? t) && (t <? w) then 45 else 32)) by lia.
  rewrite zrange_cons by lia. rewrite zrange_snoc by lia. cbn [map concat app]. change (0 - 1) with (-1). change ((1 <=? 0) && (0 <? w)) with false. cbn match. do 3 f_equal.
  rewrite map_app, concat_app, <- app_assoc. cbn [map concat]. destruct (Z.ltb_spec w w); [lia|]. rewrite andb_false_r. replace (w + 1 - 1) with w by lia. f_equal.
  unfold dashed.
  replace (zrange (0 + 1) w) with (map (fun x => x + 1) (zrange 0 (w - 1))) by (rewrite zrange_shift; f_equal; lia).
  rewrite map_map. f_equal. apply map_ext_in. intros x I. apply in_zrange in I.
  destruct (Z.leb_spec 1 (x + 1)); [|lia]. destruct (Z.ltb_spec (x + 1) w); [|lia]. cbn [andb]. now replace (x + 1 - 1) with x by lia.
Qed.

Lemma line_bars : forall j, 1 <= j < h -> line (2 * j + 1) = [124; 32; 32] ++ bars w ++ [124].
Proof.
  intros j Hj. unfold line, ringed_length.
  destruct (Z.eqb_spec (2 * j + 1) 0); [lia|]. destruct (Z.eqb_spec (2 * j + 1) (2 * h + 2)); [lia|]. cbn [orb].
  destruct (Z.eqb_spec (2 * j + 1) 1); [lia|]. destruct (Z.eqb_spec (2 * j + 1) (2 * h + 1)); [lia|]. cbn [orb].
  rewrite upto_zrange. unfold ringed_char. destruct (even_double j) as [_ ->]. replace (3 * w + 4) with (3 * (w + 1) + 1) by lia.
  rewrite (triples_end (fun _ => 124) (fun _ => 32)) by lia. rewrite zrange_cons by lia. cbn [map concat app]. do 3 f_equal. f_equal. unfold bars.
  replace (zrange (0 + 1) (w + 1)) with (map (fun x => x + 1) (zrange 0 w)) by (rewrite zrange_shift; reflexivity). now rewrite map_map.
Qed.

Lemma line_blank : forall j, j = 0 \/ j = h -> line (2 * j + 1) = [].
Proof.
  intros j Hj. unfold line, ringed_length.
  destruct (Z.eqb_spec (2 * j + 1) 0); [lia|]. destruct (Z.eqb_spec (2 * j + 1) (2 * h + 2)); [lia|]. cbn [orb].
  destruct (Z.eqb_spec (2 * j + 1) 1); [reflexivity|]. destruct (Z.eqb_spec (2 * j + 1) (2 * h + 1)); [reflexivity|lia].
Qed.

Lemma ringed_text : paragraph (ringed_lines w h s) =
  (line 0 ++ [10; 10]) ++ concat (map (fun y => line (2 * (h - y)) ++ [10] ++ [124; 32; 32] ++ bars w ++ [124; 10]) (rev (zrange 1 h))) ++
  (line (2 * h) ++ [10; 10]) ++ line (2 * h + 2).
Proof.
  unfold ringed_lines. fold line. rewrite upto_zrange. replace (2 * h + 3) with (2 * (h + 1) + 1) by lia. rewrite zrange_snoc, map_app by lia. cbn [map].
  change (map (fun r => map (ringed_char w h s r) (upto (ringed_length w h r)))) with (map line). 
  rewrite paragraph_snoc, map_map, (pairs (fun r => line r ++ [10])) by lia. rewrite zrange_snoc, zrange_cons by lia. cbn [app map concat]. rewrite map_app, concat_app. cbn [map concat].
  rewrite app_nil_r, <- !app_assoc. rewrite !line_blank by lia. cbn [app]. change (2 * 0) with 0. f_equal. f_equal. f_equal.
  fold (line (2 * (h + 1))). replace (2 * (h + 1)) with (2 * h + 2) by lia. f_equal.
  rewrite rev_range, map_map.
  replace (zrange (0 + 1) h) with (map (fun x => x + 1) (zrange 0 (h - 1))) by (rewrite zrange_shift; f_equal; lia).
  rewrite map_map. f_equal. apply map_ext_in. intros j I. apply in_zrange in I. rewrite (line_bars (j + 1)) by lia.
  replace (2 * (h - (h - 1 - j))) with (2 * (j + 1)) by lia. rewrite <- !app_assoc. reflexivity.
Qed.

End Lines.

Lemma C72_ring_pf : forall c d s w h, w = nblocs_side c * nbh c -> h = nblocs_side c * nbv c -> 1 <= w -> 1 <= h -> w * h + 2 * (w + h) <= nsites c ->
  describes (nsites c) (nholes c) (nbeta c) d s ->
  get_displayable_outer_embedding_lattice (AsConf c) d = Ok (paragraph (ringed_lines w h s)).
Proof.
  intros c d s w h Ew Eh Hw Hh Hn D. rewrite ringed_text by assumption.
  unfold get_displayable_outer_embedding_lattice. cbn [as_conf bind].
  replace (nbh c * nbv c * nblocs_side c ^ 2) with (w * h) by (rewrite Z.pow_2_r; subst; ring).
  replace ((nbh c + nbv c) * nblocs_side c) with (w + h) by (subst; ring).
  replace ((2 * nbh c + nbv c) * nblocs_side c) with (2 * w + h) by (subst; ring).
  replace (2 * (nbh c + nbv c) * nblocs_side c) with (2 * w + 2 * h) by (subst; ring).
  replace (nbh c * nblocs_side c) with w by (subst; ring). rewrite <- Ew, <- Eh.
  assert (W : 0 < w * h) by nia.
  assert (top : forall x, w * h + w + h + (w - 1 - x) = ringed_site w h (x, h)) by (intros; unfold ringed_site; destruct (Z.eqb_spec h (-1)); [lia|]; now rewrite Z.eqb_refl).
  assert (bot : forall x, w * h + x = ringed_site w h (x, -1)) by (intros; reflexivity).
  assert (east : forall y, 0 <= y < h -> w * h + w + y = ringed_site w h (w, y)).
  { intros y Hy. unfold ringed_site. destruct (Z.eqb_spec y (-1)); [lia|]. destruct (Z.eqb_spec y h); [lia|]. now rewrite Z.eqb_refl. }
  assert (west : forall y, 0 <= y < h -> w * h + 2 * w + h + (h - 1 - y) = ringed_site w h (-1, y)).
  { intros y Hy. unfold ringed_site. destruct (Z.eqb_spec y (-1)); [lia|]. destruct (Z.eqb_spec y h); [lia|]. destruct (Z.eqb_spec (-1) w); [lia | reflexivity]. }
  assert (mid : forall x y, 0 <= x < w -> 0 <= y < h -> y * w + x = ringed_site w h (x, y)).
  { intros x y Hx Hy. unfold ringed_site. destruct (Z.eqb_spec y (-1)); [lia|]. destruct (Z.eqb_spec y h); [lia|]. destruct (Z.eqb_spec x w); [lia|].
    destruct (Z.eqb_spec x (-1)); [lia | reflexivity]. }
  assert (midb : forall x y, 0 <= x < w -> 0 <= y < h -> 0 <= y * w + x < w * h) by (intros; nia).
  (* the top row *)
  rewrite (linked_ok c d s) by (try exact D; intros x I; apply in_map_iff in I; destruct I as (k & <- & I); apply in_rev, in_zrange in I; lia). cbn [bind].
  rewrite (spin_char_ok c d s) by (try exact D; lia). cbn [bind].
  (* the rows *)
  rewrite (concatM_ok _ _ _ (fun y => line w h s (2 * (h - y)) ++ [10] ++ [124; 32; 32] ++ bars w ++ [124; 10])).
  2:{ intros y I. apply in_rev, in_zrange in I. replace (2 * w + 2 * h - 1 - y + w * h) with (w * h + 2 * w + h + (h - 1 - y)) by lia.
      rewrite (spin_char_ok c d s) by (try exact D; lia). cbn [bind].
      assert (Ey : forall k, y * nblocs_side c * nbh c + k = y * w + k) by (intros; subst; ring).
      rewrite (linked_ok c d s) by (try exact D; intros x J; apply in_map_iff in J; destruct J as (k & <- & J); apply in_zrange in J; rewrite Ey; pose proof (midb k y); lia).
      cbn [bind]. replace (y * nblocs_side c * nbh c + w - 1) with (y * w + (w - 1)) by (rewrite <- Ey; ring).
      rewrite (spin_char_ok c d s) by (try exact D; pose proof (midb (w - 1) y); lia). cbn [bind].
      replace (y + w + w * h) with (w * h + w + y) by lia. rewrite (spin_char_ok c d s) by (try exact D; lia). cbn [bind]. f_equal.
      rewrite (line_row w h s Hw Hh _ y) by lia. rewrite west, east, mid by lia. rewrite <- !app_assoc. cbn [app]. do 3 f_equal. f_equal.
      unfold dashed. rewrite map_map. f_equal. apply map_ext_in. intros x J. apply in_zrange in J. now rewrite Ey, mid by lia. }
  cbn [bind].
  (* the last row *)
  replace (2 * w + 2 * h - 1 + w * h) with (w * h + 2 * w + h + (h - 1 - 0)) by lia. rewrite (spin_char_ok c d s) by (try exact D; lia). cbn [bind].
  rewrite (linked_ok c d s) by (try exact D; intros x I; apply in_zrange in I; pose proof (midb x 0); lia). cbn [bind].
  replace (spin_char c d (w - 1)) with (spin_char c d (0 * w + (w - 1))) by (f_equal; lia). rewrite (spin_char_ok c d s) by (try exact D; pose proof (midb (w - 1) 0); lia). cbn [bind].
  replace (w + w * h) with (w * h + w + 0) by lia. rewrite (spin_char_ok c d s) by (try exact D; lia). cbn [bind].
  rewrite (linked_ok c d s) by (try exact D; intros x I; apply in_map_iff in I; destruct I as (k & <- & I); apply in_zrange in I; lia). cbn [bind].
  replace (w - 1 + w * h) with (w * h + (w - 1)) by lia. rewrite (spin_char_ok c d s) by (try exact D; lia). cbn [bind]. f_equal.
  rewrite (line_edge w h s Hw 0 h) by lia. rewrite (line_edge w h s Hw (2 * h + 2) (-1)) by lia. rewrite (line_row w h s Hw Hh (2 * h) 0) by lia.
  replace (w + h + w * h) with (w * h + w + h + (w - 1 - (w - 1))) by lia. rewrite top, (west 0), (east 0), (mid (w - 1) 0) by lia. rewrite flat_map_concat_map.
  replace (w * h + (w - 1)) with (ringed_site w h (w - 1, -1)) by (rewrite <- bot; reflexivity).
  assert (T : concat (map (fun x => [arrow_of (s x); 45; 45]) (map (fun ind => w * h + ind) (rev (zrange (w + h + 1) (2 * w + h))))) = dashed w s (fun x => ringed_site w h (x, h))).
  { replace (zrange (w + h + 1) (2 * w + h)) with (map (fun x => x + (w + h)) (zrange 1 w)) by (rewrite zrange_shift; f_equal; lia).
    rewrite <- map_rev, rev_range, !map_map. unfold dashed. f_equal. apply map_ext. intros x. rewrite <- top. do 3 f_equal. lia. }
  assert (R : concat (map (fun x => [arrow_of (s x); 45; 45]) (zrange 0 (w - 1))) = dashed w s (fun x => ringed_site w h (x, 0))).
  { unfold dashed. f_equal. apply map_ext_in. intros x I. apply in_zrange in I. now rewrite <- mid by lia. }
  assert (B : concat (map (fun x => [arrow_of (s x); 45; 45]) (map (fun ind => w * h + ind) (zrange 0 (w - 1)))) = dashed w s (fun x => ringed_site w h (x, -1))).
  { unfold dashed. now rewrite map_map. }
  rewrite T, R, B. rewrite <- !app_assoc. reflexivity.
Qed.
