(** Displays (C60, C61, C62, C72). *)
From Coq Require Import ZArith List Bool Lia QArith Qcanon.
From Verif Require Import PyBase PyFacts Lattice Base Prob Spec PHash PBasis PSites Display DisplayDefs.
Import ListNotations.
Open Scope Z_scope.

Lemma upto_zrange : forall k, upto k = zrange 0 k.
Proof. intros. unfold upto, zrange. rewrite Z.sub_0_r. apply map_ext. intros. lia. Qed.

Lemma map_const : forall A B (b : B) (l : list A), map (fun _ => b) l = repeat b (length l).
Proof. induction l; simpl; congruence. Qed.

(** ** One determinant *)

Lemma set_nth_map : forall A (f : Z -> A) n x v, 0 <= x < n ->
  set_nth (map f (zrange 0 n)) (Z.to_nat x) v = map (fun y => if y =? x then v else f y) (zrange 0 n).
Proof.
  intros A f n x v H. rewrite (zrange_app 0 x n) by lia. rewrite !map_app. rewrite (zrange_cons x n) by lia. cbn [map].
  replace (Z.to_nat x) with (length (map f (zrange 0 x)) + 0)%nat by (rewrite map_length, zrange_length; lia).
  rewrite set_nth_app2. cbn [set_nth]. rewrite Z.eqb_refl. f_equal; [|f_equal].
  - apply map_ext_in. intros y I. apply in_zrange in I. destruct (Z.eqb_spec y x); [lia | reflexivity].
  - apply map_ext_in. intros y I. apply in_zrange in I. destruct (Z.eqb_spec y x); [lia | reflexivity].
Qed.

Lemma marking : forall ch n xs pre post f, (forall x, In x xs -> 0 <= x < n) ->
  foldM (fun (p : list Z) ind => x <- py_get (pre ++ xs ++ post) ind ;; py_set p x ch) (map f (zrange 0 n)) (zrange (zlen pre) (zlen pre + zlen xs))
  = Ok (map (fun y => if mem y xs then ch else f y) (zrange 0 n)).
Proof.
  induction xs as [|x xs IH]; intros pre post f B.
  - change (zlen []) with 0. rewrite (zrange_nil (zlen pre)) by lia. cbn [foldM]. f_equal.
  - pose proof (zlen_nonneg _ xs). rewrite (zrange_cons (zlen pre)) by (rewrite zlen_cons; lia). cbn [foldM].
    assert (G : py_get (pre ++ (x :: xs) ++ post) (zlen pre) = Ok x).
    { pose proof (zlen_nonneg _ pre). apply py_get_nth; [assumption|]. unfold zlen. rewrite Nat2Z.id, nth_error_app2 by lia.
      rewrite Nat.sub_diag. reflexivity. }
    rewrite G. cbn [bind]. assert (0 <= x < n) by (apply B; now left).
    rewrite py_set_ok by (rewrite zlen_map, zlen_zrange; lia). cbn [bind]. rewrite set_nth_map by assumption.
    replace (pre ++ (x :: xs) ++ post) with ((pre ++ [x]) ++ xs ++ post) by (rewrite <- app_assoc; reflexivity).
    replace (zlen pre + 1) with (zlen (pre ++ [x])) by (rewrite zlen_app; reflexivity).
    replace (zlen pre + zlen (x :: xs)) with (zlen (pre ++ [x]) + zlen xs) by (rewrite zlen_app, !zlen_cons; change (zlen []) with 0; lia).
    rewrite IH by (intros y I; apply B; now right). f_equal. apply map_ext. intros y. unfold mem. cbn [existsb].
    destruct (y =? x); cbn [orb]; [|reflexivity]. now destruct (existsb _ _).
Qed.

Lemma mem_In : forall x l, mem x l = true <-> In x l.
Proof.
  intros. unfold mem. rewrite existsb_exists. split.
  - intros (y & I & E). apply Z.eqb_eq in E. now subst.
  - intros I. exists x. split; [assumption | apply Z.eqb_refl].
Qed.

Lemma determinant_shown : forall c d s, 0 <= nsites c -> describes (nsites c) (nholes c) (nbeta c) d s ->
  get_displayable_determinant (AsConf c) d = Ok (map (fun x => sign_of (s x)) (upto (nsites c))).
Proof.
  intros c d s Hn D. pose proof (describes_length _ _ _ _ _ Hn D) as L.
  pose proof D as (hs & bs & us & Ed & Lh & Lb & Nh & Nb & Nu & Ih & Ib & Iu). fold (zlen hs) in Lh. fold (zlen bs) in Lb.
  unfold get_displayable_determinant. cbn [as_conf bind].
  replace (map (fun _ => 43) d) with (map (fun _ : Z => 43) (zrange 0 (nsites c))).
  2:{ rewrite !map_const. f_equal. rewrite zrange_length. unfold zlen in L. lia. }
  pose proof (marking 48 (nsites c) hs [] (bs ++ us) (fun _ => 43)) as M1. cbn [app] in M1. rewrite <- Ed in M1.
  change (zlen []) with 0 in M1. rewrite Z.add_0_l, Lh in M1. rewrite M1 by (intros x I; now apply Ih in I). cbn [bind].
  pose proof (zlen_nonneg _ hs). rewrite Z.max_r by lia.
  pose proof (marking 45 (nsites c) bs hs us (fun y => if mem y hs then 48 else 43)) as M2. rewrite <- Ed, Lh, Lb in M2.
  rewrite M2 by (intros x I; now apply Ib in I). f_equal. rewrite upto_zrange. apply map_ext_in. intros x I. apply in_zrange in I.
  destruct (mem x bs) eqn:Eb; [apply mem_In, Ib in Eb; destruct Eb as [_ ->]; reflexivity|].
  destruct (mem x hs) eqn:Eh; [apply mem_In, Ih in Eh; destruct Eh as [_ ->]; reflexivity|].
  destruct (s x) eqn:Es; [| |reflexivity].
  - assert (In x hs) as J by (apply Ih; auto). apply mem_In in J. congruence.
  - assert (In x bs) as J by (apply Ib; auto). apply mem_In in J. congruence.
Qed.

Lemma C60_shown_pf : forall c d s, 0 <= nsites c -> describes (nsites c) (nholes c) (nbeta c) d s ->
  get_displayable_determinant (AsConf c) d = Ok (map (fun x => sign_of (s x)) (upto (nsites c))).
Proof. exact determinant_shown. Qed.

Lemma C60_distinct_pf : forall c d1 d2 s1 s2, 0 <= nsites c ->
  describes (nsites c) (nholes c) (nbeta c) d1 s1 -> increasing_groups (nholes c) (nbeta c) d1 ->
  describes (nsites c) (nholes c) (nbeta c) d2 s2 -> increasing_groups (nholes c) (nbeta c) d2 ->
  get_displayable_determinant (AsConf c) d1 = get_displayable_determinant (AsConf c) d2 -> d1 = d2.
Proof.
  intros c d1 d2 s1 s2 Hn D1 I1 D2 I2 H. rewrite (determinant_shown c d1 s1), (determinant_shown c d2 s2) in H by assumption.
  injection H as H. assert (same_state (nsites c) s1 s2) as E.
  { intros x Hx. rewrite upto_zrange in H. assert (K : sign_of (s1 x) = sign_of (s2 x)).
    { apply (ext_in_map H). now apply in_zrange. }
    destruct (s1 x), (s2 x); try reflexivity; discriminate. }
  assert (describes (nsites c) (nholes c) (nbeta c) d2 s1).
  { eapply describes_same; [|exact D2]. intros x Hx. symmetry. now apply E. }
  rewrite (increasing_canon _ _ _ _ _ D1 I1). symmetry. now apply increasing_canon with (h := nholes c) (b := nbeta c).
Qed.

(** ** Lines *)

Lemma paragraph_snoc : forall ls l, paragraph (ls ++ [l]) = concat (map (fun y => y ++ [10]) ls) ++ l.
Proof.
  induction ls as [|x ls IH]; intros l; [reflexivity|]. cbn [app map concat]. rewrite <- !app_assoc. cbn [app].
  rewrite <- IH. destruct ls; reflexivity.
Qed.

Lemma pairs : forall (G : Z -> list Z) m, 0 <= m ->
  concat (map G (zrange 0 (2 * m))) = concat (map (fun j => G (2 * j) ++ G (2 * j + 1)) (zrange 0 m)).
Proof.
  intros G. apply natlike_ind; [reflexivity|]. intros m Hm IH. unfold Z.succ.
  replace (2 * (m + 1)) with (2 * m + 1 + 1) by lia. rewrite !zrange_snoc, !map_app, !concat_app, IH by lia. cbn [map concat].
  rewrite !app_nil_r, <- app_assoc. reflexivity.
Qed.

Lemma triples : forall (f g : Z -> Z) m, 0 <= m ->
  map (fun k => if k mod 3 =? 0 then f (k / 3) else g (k / 3)) (zrange 0 (3 * m)) = concat (map (fun j => [f j; g j; g j]) (zrange 0 m)).
Proof.
  intros f g. apply natlike_ind; [reflexivity|]. intros m Hm IH. unfold Z.succ.
  replace (3 * (m + 1)) with (3 * m + 1 + 1 + 1) by lia. rewrite !zrange_snoc, !map_app, IH by lia. cbn [map].
  rewrite concat_app. cbn [concat app]. rewrite <- !app_assoc. f_equal. cbn [app].
  replace (3 * m) with (m * 3) by lia. replace (m * 3 + 1 + 1) with (2 + m * 3) by lia. replace (m * 3 + 1) with (1 + m * 3) by lia.
  rewrite Z.mod_mul, !Z.mod_add, Z.div_mul, !Z.div_add by lia. change (1 mod 3) with 1. change (2 mod 3) with 2.
  change (1 / 3) with 0. change (2 / 3) with 0. reflexivity.
Qed.

Lemma triples_end : forall (f g : Z -> Z) m, 0 <= m ->
  map (fun k => if k mod 3 =? 0 then f (k / 3) else g (k / 3)) (zrange 0 (3 * m + 1)) = concat (map (fun j => [f j; g j; g j]) (zrange 0 m)) ++ [f m].
Proof.
  intros f g m Hm. rewrite zrange_snoc, map_app, triples by lia. f_equal. cbn [map]. rewrite (Z.mul_comm 3), Z.mod_mul, Z.div_mul by lia. reflexivity.
Qed.

Lemma rev_range_succ : forall m, 0 <= m -> rev (zrange 1 (m + 1)) = map (fun j => m - j) (zrange 0 m).
Proof.
  apply natlike_ind; [reflexivity|]. intros m Hm IH. unfold Z.succ. rewrite (zrange_snoc 1 (m + 1)), rev_app_distr by lia. cbn [rev app].
  rewrite IH. rewrite (zrange_cons 0 (m + 1)) by lia. cbn [map]. f_equal; [lia|].
  replace (zrange (0 + 1) (m + 1)) with (map (fun x => x + 1) (zrange 0 m)) by apply zrange_shift.
  rewrite map_map. apply map_ext. intros. lia.
Qed.

Lemma rev_range : forall h, rev (zrange 1 h) = map (fun j => h - 1 - j) (zrange 0 (h - 1)).
Proof.
  intros h. destruct (Z_le_gt_dec 1 h) as [H|H]; [|rewrite !zrange_nil by lia; reflexivity].
  replace h with (h - 1 + 1) at 1 by lia. apply rev_range_succ. lia.
Qed.

Lemma even_double : forall r, Z.even (2 * r) = true /\ Z.even (2 * r + 1) = false.
Proof. intros. split; [apply Z.even_mul | rewrite Z.even_add, Z.even_mul; reflexivity]. Qed.

Lemma half_double : forall r, (2 * r) / 2 = r /\ (2 * r + 1) / 2 = r.
Proof. intros. split; symmetry; [apply Z.div_unique with 0 | apply Z.div_unique with 1]; lia. Qed.

Lemma bars_spec : forall k, bars k = concat (map (fun _ => [124; 32; 32]) (zrange 0 k)).
Proof. reflexivity. Qed.

Lemma spin_char_ok : forall c d s x, describes (nsites c) (nholes c) (nbeta c) d s -> 0 <= x < nsites c -> spin_char c d x = Ok (arrow_of (s x)).
Proof. intros c d s x D Hx. unfold spin_char. rewrite (spin_site_ok c d s x D Hx). cbn [bind]. now destruct (s x). Qed.

Lemma linked_ok : forall c d s l, describes (nsites c) (nholes c) (nbeta c) d s -> (forall x, In x l -> 0 <= x < nsites c) ->
  linked c d l = Ok (concat (map (fun x => [arrow_of (s x); 45; 45]) l)).
Proof.
  intros c d s l D B. rewrite <- flat_map_concat_map. apply concatM_ok. intros x I. rewrite (spin_char_ok c d s x D) by now apply B. reflexivity.
Qed.

(** ** The rectangle *)

Lemma rectangle_row : forall w h s j, 1 <= w ->
  rectangle_line w h s (2 * j) = concat (map (fun x => [arrow_of (s (site w (x, h - 1 - j))); 45; 45]) (zrange 0 (w - 1))) ++ [arrow_of (s (site w (w - 1, h - 1 - j)))].
Proof.
  intros w h s j Hw. unfold rectangle_line, rectangle_char. rewrite upto_zrange. destruct (even_double j) as [-> _]. destruct (half_double j) as [-> _].
  replace (3 * w - 2) with (3 * (w - 1) + 1) by lia.
  rewrite (triples_end (fun x => arrow_of (s (site w (x, h - 1 - j)))) (fun _ => 45)) by lia. reflexivity.
Qed.

Lemma rectangle_bars : forall w h s j, 1 <= w -> rectangle_line w h s (2 * j + 1) = bars (w - 1) ++ [124].
Proof.
  intros w h s j Hw. unfold rectangle_line, rectangle_char. rewrite upto_zrange. destruct (even_double j) as [_ ->].
  replace (3 * w - 2) with (3 * (w - 1) + 1) by lia. now rewrite (triples_end (fun _ => 124) (fun _ => 32)) by lia.
Qed.

Lemma site_in : forall w h x y, 0 <= x < w -> 0 <= y < h -> 0 <= site w (x, y) < w * h.
Proof. intros. unfold site. cbn [fst snd]. nia. Qed.

Lemma rectangle_shown : forall c d s w h, w = nblocs_side c * nbh c -> h = nblocs_side c * nbv c -> 1 <= w -> 1 <= h -> w * h <= nsites c ->
  describes (nsites c) (nholes c) (nbeta c) d s ->
  get_displayable_rectangular_lattice (AsConf c) d = Ok (paragraph (rectangle_lines w h s)).
Proof.
  intros c d s w h Ew Eh Hw Hh Hn D. unfold get_displayable_rectangular_lattice. cbn [as_conf bind]. rewrite <- Ew, <- Eh.
  rewrite (concatM_ok _ _ _ (fun y => (concat (map (fun x => [arrow_of (s (site w (x, y))); 45; 45]) (zrange 0 (w - 1))) ++ [arrow_of (s (site w (w - 1, y)))] ++ [10])
      ++ (bars (w - 1) ++ [124]) ++ [10])).
  2:{ intros y I. apply in_rev, in_zrange in I.
      rewrite (linked_ok c d s) by (try exact D; intros x J; apply in_map_iff in J; destruct J as (k & <- & J); apply in_zrange in J;
        replace (y * nblocs_side c * nbh c + k) with (site w (k, y)) by (unfold site; simpl; lia); pose proof (site_in w h k y); lia).
      cbn [bind]. replace (y * nblocs_side c * nbh c + w - 1) with (site w (w - 1, y)) by (unfold site; simpl; lia).
      rewrite (spin_char_ok c d s) by (try exact D; pose proof (site_in w h (w - 1) y); lia). cbn [bind]. f_equal.
      rewrite map_map, <- !app_assoc. cbn [app]. f_equal. f_equal. apply map_ext. intros x. replace (y * nblocs_side c * nbh c + x) with (site w (x, y)) by (unfold site; simpl; lia). reflexivity. }
  cbn [bind]. rewrite (linked_ok c d s) by (try exact D; intros x I; apply in_zrange in I; nia). cbn [bind].
  rewrite (spin_char_ok c d s) by (try exact D; nia). cbn [bind]. f_equal.
  unfold rectangle_lines. rewrite upto_zrange. replace (2 * h - 1) with (2 * (h - 1) + 1) by lia. rewrite zrange_snoc, map_app by lia. cbn [map].
  rewrite paragraph_snoc, map_map, (pairs (fun r => rectangle_line w h s r ++ [10])) by lia. rewrite rectangle_row by assumption.
  replace (h - 1 - (h - 1)) with 0 by lia. f_equal.
  rewrite flat_map_concat_map, rev_range, map_map. f_equal. apply map_ext. intros j. rewrite rectangle_row, rectangle_bars, <- !app_assoc by assumption. reflexivity.
Qed.

(** ** Two rectangles *)

Definition cut (st : list (list Z) * list Z) (ch : Z) : list (list Z) * list Z :=
  let '(lines, line) := st in if ch =? 10 then (lines ++ [line], []) else (lines, line ++ [ch]).

Lemma cut_line : forall l ls acc, ~ In 10 l -> fold_left cut l (ls, acc) = (ls, acc ++ l).
Proof.
  induction l as [|ch l IH]; intros ls acc N; [now rewrite app_nil_r|]. cbn [fold_left]. unfold cut at 2. 
  destruct (Z.eqb_spec ch 10); [subst; exfalso; apply N; now left|]. rewrite IH by (intros I; apply N; now right). now rewrite <- app_assoc.
Qed.

Lemma cut_paragraph : forall lines ls, lines <> [] -> (forall l, In l lines -> ~ In 10 l) ->
  (let '(a, b) := fold_left cut (paragraph lines) (ls, []) in a ++ [b]) = ls ++ lines.
Proof.
  induction lines as [|l lines IH]; intros ls NE N; [congruence|]. destruct lines as [|l' lines].
  - cbn [paragraph]. rewrite cut_line by (apply N; now left). reflexivity.
  - change (paragraph (l :: l' :: lines)) with (l ++ 10 :: paragraph (l' :: lines)). rewrite fold_left_app, cut_line by (apply N; now left).
    cbn [fold_left]. unfold cut at 2. rewrite Z.eqb_refl. cbn [app]. rewrite IH; [now rewrite <- app_assoc | discriminate | intros; apply N; now right].
Qed.

Lemma split_paragraph : forall lines, lines <> [] -> (forall l, In l lines -> ~ In 10 l) -> split_lines (paragraph lines) = lines.
Proof. intros lines NE N. exact (cut_paragraph lines [] NE N). Qed.

Lemma arrow_line : forall p, arrow_of p <> 10.
Proof. destruct p; discriminate. Qed.

Lemma rectangle_no_line : forall w h s l, In l (rectangle_lines w h s) -> ~ In 10 l.
Proof.
  intros w h s l I. unfold rectangle_lines in I. apply in_map_iff in I. destruct I as (r & <- & _). unfold rectangle_line. rewrite in_map_iff.
  intros (k & E & _). unfold rectangle_char in E. destruct (Z.even r), (k mod 3 =? 0); try discriminate. now apply arrow_line in E.
Qed.

Lemma rectangle_some : forall w h s, 1 <= h -> rectangle_lines w h s <> [].
Proof.
  intros w h s H E. apply (f_equal (@length _)) in E. unfold rectangle_lines in E. rewrite map_length, upto_zrange, zrange_length in E.
  cbn [length] in E. lia.
Qed.

Lemma combine_map : forall A B C (f : A -> B) (g : A -> C) l e1 e2, e1 = [] \/ e2 = [] ->
  combine (map f l ++ e1) (map g l ++ e2) = map (fun x => (f x, g x)) l.
Proof. induction l; simpl; intros e1 e2 H; [destruct H; subst; [reflexivity | now destruct e1] | f_equal; auto]. Qed.

Lemma combine_upto : forall A B (f : Z -> A) (g : Z -> B) a b, 0 <= a -> 0 <= b ->
  combine (map f (upto a)) (map g (upto b)) = map (fun x => (f x, g x)) (upto (Z.min a b)).
Proof.
  intros A B f g a b Ha Hb. rewrite !upto_zrange. destruct (Z_le_gt_dec a b) as [H|H].
  - rewrite Z.min_l by lia. rewrite (zrange_app 0 a b), (map_app g) by lia. rewrite (app_nil_end (map f (zrange 0 a))). apply combine_map. now left.
  - rewrite Z.min_r by lia. rewrite (zrange_app 0 b a), (map_app f) by lia. rewrite (app_nil_end (map g (zrange 0 b))). apply combine_map. now right.
Qed.

Lemma C61_rectangle_pf : forall c d s w h, w = nblocs_side c * nbh c -> h = nblocs_side c * nbv c -> 1 <= w -> 1 <= h -> w * h <= nsites c ->
  describes (nsites c) (nholes c) (nbeta c) d s ->
  get_displayable_rectangular_lattice (AsConf c) d = Ok (paragraph (rectangle_lines w h s)).
Proof. exact rectangle_shown. Qed.

Lemma C61_neighbor_pf : forall cA cB dA dB sA sB wA hA wB hB,
  wA = nblocs_side cA * nbh cA -> hA = nblocs_side cA * nbv cA -> 1 <= wA -> 1 <= hA -> wA * hA <= nsites cA ->
  wB = nblocs_side cB * nbh cB -> hB = nblocs_side cB * nbv cB -> 1 <= wB -> 1 <= hB -> wB * hB <= nsites cB ->
  describes (nsites cA) (nholes cA) (nbeta cA) dA sA -> describes (nsites cB) (nholes cB) (nbeta cB) dB sB ->
  get_displayable_neighbor (AsConf cA) (AsConf cB) dA dB =
    Ok (concat (map (fun r => rectangle_line wA hA sA r ++ [32] ++ rectangle_line wB hB sB r ++ [10]) (upto (2 * Z.min hA hB - 1)))).
Proof.
  intros cA cB dA dB sA sB wA hA wB hB EwA EhA HwA HhA HnA EwB EhB HwB HhB HnB DA DB. unfold get_displayable_neighbor.
  rewrite (rectangle_shown cA dA sA wA hA), (rectangle_shown cB dB sB wB hB) by assumption. cbn [bind].
  rewrite !split_paragraph by (try apply rectangle_some; try apply rectangle_no_line; assumption).
  unfold rectangle_lines. rewrite combine_upto, map_map by lia. replace (2 * Z.min hA hB - 1) with (Z.min (2 * hA - 1) (2 * hB - 1)) by lia. reflexivity.
Qed.

(** the sites of the picture are those of the lattice, each once *)
Lemma C61_point_pf : forall w h s x, 1 <= w -> 0 <= x < w * h ->
  let '(X, Y) := point w x in
  0 <= X < w /\ 0 <= Y < h /\ nth (Z.to_nat (3 * X)) (nth (Z.to_nat (2 * (h - 1 - Y))) (rectangle_lines w h s) []) 0 = arrow_of (s x).
Proof.
  intros w h s x Hw Hx. unfold point. pose proof (Z.div_mod x w). pose proof (Z.mod_pos_bound x w).
  assert (0 <= x / w < h) by (split; [apply Z.div_pos; lia | apply Z.div_lt_upper_bound; lia]). split; [lia|]. split; [assumption|].
  unfold rectangle_lines. rewrite (nth_indep _ [] (rectangle_line w h s 0)) by (rewrite map_length, upto_zrange, zrange_length; lia).
  rewrite map_nth. unfold rectangle_line. rewrite (nth_indep _ 0 (rectangle_char w h s (nth (Z.to_nat (2 * (h - 1 - x / w))) (upto (2 * h - 1)) 0) 0)) by (rewrite map_length, upto_zrange, zrange_length; lia).
  rewrite map_nth. unfold upto. rewrite !(map_nth Z.of_nat _ 0%nat), !seq_nth by lia. cbn [Nat.add]. rewrite !Z2Nat.id by lia.
  unfold rectangle_char. destruct (even_double (h - 1 - x / w)) as [-> _]. destruct (half_double (h - 1 - x / w)) as [-> _].
  rewrite (Z.mul_comm 3), Z.mod_mul, Z.div_mul by lia. cbn [Z.eqb]. f_equal. f_equal. unfold site. cbn [fst snd]. lia.
Qed.

Lemma C61_unsized_pf : forall c d s, nblocs_side c = 0 -> describes (nsites c) (nholes c) (nbeta c) d s ->
  get_displayable_rectangular_lattice (AsConf c) d = Err ValueError.
Proof.
  intros c d s E D. unfold get_displayable_rectangular_lattice. cbn [as_conf bind]. rewrite E. change (zrange 1 (0 * nbv c)) with (@nil Z).
  change (zrange 0 (0 * nbh c - 1)) with (@nil Z). cbn. unfold spin_char. rewrite (spin_site_err c d s (-1) D) by lia. reflexivity.
Qed.
