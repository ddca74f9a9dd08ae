(** The dictionary of couplings of one determinant, for any drawing and two different lists of sites. *)
From Coq Require Import ZArith List Bool Lia Permutation QArith Qcanon.
From Verif Require Import PyBase PyFacts Lattice Base Interact Spec SpecOps SpecTJ Geometry
  PBasis PSites PRot PMat PGeo PInter PSpin PRep FGeo FBasis FSites FInter POps PDyn.
Import ListNotations.
Open Scope Z_scope.

Section Dyn.
Variables (E : runtime) (c : configuration) (pos : Z -> Z * Z) (r0 r1 : list Z) (K : interactions) (d : list Z) (s : occupation).
Hypothesis HE : set_iter_ok E.
Hypothesis HD : drawn c pos.
Hypothesis HL : straightness_decided E c pos.
Hypothesis HR : sites_restriction c = RTuple r0 r1.
Hypothesis Hd : conf_describes c d s.
Hypothesis HX : forall e, In e r1 -> s e = Hole -> In e r0.
Let n := nsites c.
Variable L : lattice.
Hypothesis HLs : lat_size L = n.
Hypothesis HLp : forall x, 0 <= x < n -> lat_pos L x = pos x.
Hypothesis HLf : forall x, 0 <= x < n -> (lat_from L x = true <-> In x r0).
Hypothesis HLt : forall x, 0 <= x < n -> (lat_to L x = true <-> In x r1).
Let sec := in_sector n (nholes c) (nbeta c).
Let lists := PDyn.lists c.
Let lists_app := PDyn.lists_app c.
Let lists_if := PDyn.lists_if c 0 s.
Let lists_pairs := PDyn.lists_pairs c 0 d s Hd.

Lemma not_hole : forall x, s x <> Hole -> holeb (s x) = false.
Proof. intros x H. destruct (holeb (s x)) eqn:Q; [apply holeb_iff in Q; contradiction | reflexivity]. Qed.
Lemma hole_not : forall x, holeb (s x) = false -> s x <> Hole.
Proof. intros x H Q. rewrite Q in H. discriminate. Qed.

Lemma bonded_adj : forall x y, 0 <= x < n -> 0 <= y < n -> (bonded L x y = true <-> adjacent (pos x) (pos y)).
Proof. intros x y Hx Hy. unfold bonded. rewrite (HLp x Hx), (HLp y Hy). apply bondb_iff. Qed.

Lemma swap_sec : forall x y, 0 <= x < n -> 0 <= y < n -> sec (swap_state x y s).
Proof. intros x y Hx Hy. eapply describes_sector. apply (swap_describes _ _ _ d); assumption. Qed.

Lemma shift_sec : forall h m e, path n pos h m e -> sec (shift_state h m e s).
Proof.
  intros h m e (H1 & H2 & H3 & N & A1 & A2). eapply describes_sector.
  apply (shift_describes _ _ _ d); try assumption; eapply adj_ne; eassumption.
Qed.

Lemma hop_lists : exists ims, compute_hopping_integral E c d = Ok ims /\
  lists (flat_events [(ims, i_t K)]) (op_hop L K s)
    (fun t => exists h e, 0 <= h < n /\ 0 <= e < n /\ lat_from L h && lat_to L e && bonded L h e && holeb (s h) && negb (holeb (s e)) = true /\ t = swap_state h e s).
Proof.
  destruct (hop_pairs_ok E c pos r0 r1 d s HE HD HR Hd) as (ND & I).
  eexists. split; [apply (hopping_ok E c pos r0 r1 d s HE HD HR Hd)|]. unfold op_hop. rewrite HLs.
  apply (lists_pairs (hop_pairs E c d)); [assumption| |].
  - intros h e. rewrite I. fold n. split.
    + intros (H1 & H2 & H3 & H4 & H5 & H6 & H7). split; [assumption|]. split; [assumption|].
      rewrite !andb_true_iff, negb_true_iff, holeb_iff, HLf, HLt, bonded_adj by assumption.
      assert (N : holeb (s e) = false) by (apply not_hole; intros Q; apply H6; split; [assumption | now apply HX]). auto.
    + intros (H1 & H2 & H3). rewrite !andb_true_iff, negb_true_iff, holeb_iff, HLf, HLt, bonded_adj in H3 by assumption.
      destruct H3 as ((((A & B) & C) & F) & G). repeat (split; [assumption|]). split; [|assumption].
      intros [Q _]. rewrite Q in G. discriminate.
  - unfold flat_events. cbn [flat_map fst snd]. rewrite app_nil_r, map_map. apply Permutation_refl.
Qed.

Lemma two_bonds_path : forall x y, 0 <= x < n -> 0 <= y < n -> x <> y ->
  (two_bonds L x y = true <-> exists m, path n pos x m y).
Proof.
  intros x y Hx Hy N. unfold two_bonds. rewrite existsb_exists. rewrite HLs. split.
  - intros (m & Hm & H). apply in_sites in Hm. apply andb_true_iff in H. destruct H as [H1 H2].
    apply bonded_adj in H1; [|assumption|assumption]. apply bonded_adj in H2; [|assumption|assumption].
    exists m. repeat (split; [assumption|]). assumption.
  - intros (m & _ & Hm & _ & _ & A1 & A2). exists m. rewrite in_sites, andb_true_iff, !bonded_adj by assumption. auto.
Qed.

Lemma lineb_pos : forall x y, 0 <= x < n -> 0 <= y < n -> lineb pos x y = lineb2 (lat_pos L x) (lat_pos L y).
Proof. intros x y Hx Hy. rewrite !HLp by assumption. reflexivity. Qed.

Lemma next_lists : exists col ortho, compute_next_hopping_integral E c d = Ok (col, ortho) /\
  lists (flat_events [(col, i_tnNNN K); (ortho, i_tNNN K)]) (op_next_hop L K s)
    (fun t => exists h e, 0 <= h < n /\ 0 <= e < n /\ lat_from L h && lat_to L e && two_bonds L h e && holeb (s h) && negb (holeb (s e)) = true /\ t = swap_state h e s).
Proof.
  destruct (next_hopping_ok E c pos r0 r1 d s HE HD HR Hd HL) as (ps & ND & I & Ec).
  eexists _, _. split; [exact Ec|]. unfold op_next_hop. rewrite HLs.
  apply (lists_pairs ps); [assumption| |].
  - intros h e. rewrite I. fold n. split.
    + intros (H1 & H2 & H3 & H4 & m & H5). pose proof H5 as (Rh & _ & Re & Ne & _).
      split; [assumption|]. split; [assumption|].
      rewrite !andb_true_iff, negb_true_iff, holeb_iff, HLf, HLt, two_bonds_path by assumption.
      pose proof (not_hole e H3). eauto 10.
    + intros (H1 & H2 & H3). rewrite !andb_true_iff, negb_true_iff, holeb_iff in H3.
      destruct H3 as ((((A & B) & C) & F) & G).
      assert (Ne : h <> e) by (intros ->; rewrite F in G; discriminate).
      rewrite HLf in A by assumption. rewrite HLt in B by assumption. rewrite two_bonds_path in C by assumption.
      split; [assumption|]. split; [assumption|]. split; [now apply hole_not|auto].
  - unfold flat_events. cbn [flat_map fst snd]. rewrite app_nil_r, !map_map.
    assert (RG : forall p, In p ps -> 0 <= fst p < n /\ 0 <= snd p < n).
    { intros [h e] H. apply I in H. destruct H as (_ & _ & _ & _ & m & H). split; apply H. }
    rewrite (map_ext_in (fun p => (canon n (swap_state (fst p) (snd p) s), if lineb2 (lat_pos L (fst p)) (lat_pos L (snd p)) then i_tnNNN K else i_tNNN K))
      (fun p => (canon n (swap_state (fst p) (snd p) s), if lineb pos (fst p) (snd p) then i_tnNNN K else i_tNNN K))).
    2:{ intros p Hp. destruct (RG p Hp). now rewrite lineb_pos. }
    apply perm_split2; intros p ->; reflexivity.
Qed.

Lemma singlet_lists : exists par per, compute_singlet_displacement E c d = Ok (par, per) /\
  lists (flat_pairs [(par, i_hSDpar K); (per, i_hSDper K)]) (op_singlet L K s)
    (fun t => exists h m e, 0 <= h < n /\ 0 <= m < n /\ 0 <= e < n /\
       lat_from L h && lat_to L m && lat_to L e && bonded L h m && bonded L m e && holeb (s h) && oppositeb (s m) (s e) = true /\
       (t = shift_state h m e s \/ t = swap_state h e s)).
Proof.
  destruct (sd_triples_ok E c pos r0 r1 d s HE HD HR Hd) as (ND & I).
  eexists _, _. split; [apply (singlet_ok E c pos r0 r1 d s HE HD HR Hd HL)|].
  set (ts := sd_triples E c d s) in *.
  assert (I' : forall h m e, In (h, m, e) ts <-> 0 <= h < n /\ 0 <= m < n /\ 0 <= e < n /\
     lat_from L h && lat_to L m && lat_to L e && bonded L h m && bonded L m e && holeb (s h) && oppositeb (s m) (s e) = true).
  { intros h m e. rewrite I. fold n. split.
    * intros (H1 & H2 & H3 & H4 & H5 & H6). pose proof H6 as (Rh & Rm & Re & Ne & A1 & A2).
      repeat (split; [assumption|]).
      rewrite !andb_true_iff, holeb_iff, oppositeb_iff, HLf, !HLt, !bonded_adj by assumption. auto 10.
    * intros (H1 & H2 & H3 & H4). rewrite !andb_true_iff, holeb_iff, oppositeb_iff in H4.
      destruct H4 as ((((((A & B) & C) & F) & G) & O) & Q).
      rewrite HLf in A by assumption. rewrite HLt in B by assumption. rewrite HLt in C by assumption.
      rewrite bonded_adj in F by assumption. rewrite bonded_adj in G by assumption.
      repeat (split; [assumption|]).
      split; [intros ->; destruct Q as [[_ Q]|[_ Q]]; congruence|]. auto. }
  set (x := fun t : Z * Z * Z => let '(h, m, e) := t in if lineb pos h e then i_hSDpar K else i_hSDper K).
  set (g := fun t : Z * Z * Z => let '(h, m, e) := t in [(x t, shift_state h m e s); ((- x t)%Qc, swap_state h e s)]).
  exists (flat_map g ts). split; [|split; [|split]].
  - unfold flat_pairs. cbn [flat_map fst snd]. rewrite app_nil_r.
    assert (FM : forall A B C (f : A -> B) (q : B -> list C) l, flat_map q (map f l) = flat_map (fun a => q (f a)) l).
    { intros A B C f q l. induction l as [|a l IH]; cbn; [reflexivity | now rewrite IH]. }
    rewrite !FM. unfold PDyn.keyed.
    assert (MF : forall A B C (f : B -> C) (q : A -> list B) l, map f (flat_map q l) = flat_map (fun a => map f (q a)) l).
    { intros A B C f q l. induction l as [|a l IH]; cbn; [reflexivity | now rewrite map_app, IH]. }
    rewrite MF. apply flat_filter2; intros [[h m] e] Q; unfold g, x; cbn [sd_line] in Q; rewrite Q; reflexivity.
  - intros y t H. apply in_flat_map in H. destruct H as ([[h m] e] & Hin & H). pose proof Hin as H0. apply I in H0.
    destruct H0 as (_ & _ & _ & _ & _ & P). destruct H as [[= <- <-]|[[= <- <-]|[]]].
    + now apply shift_sec.
    + apply swap_sec; apply P.
  - intros t. unfold PDyn.ampl. rewrite qsum_flat_map. unfold op_singlet. rewrite HLs.
    rewrite (sum_triples n ts (fun h m e => lat_from L h && lat_to L m && lat_to L e && bonded L h m && bonded L m e && holeb (s h) && oppositeb (s m) (s e))) by assumption.
    apply sum_sites_ext. intros h Hh0. apply sum_sites_ext. intros m Hm0. apply sum_sites_ext. intros e He0. fold n.
    unfold g, x. rewrite !qsum_cons, !qsum_nil. cbn [fst snd]. rewrite lineb_pos by assumption.
    destruct (_ && oppositeb (s m) (s e)); cbn [only]; [|reflexivity].
    destruct (lineb2 (lat_pos L h) (lat_pos L e));
      destruct (sameb n t (shift_state h m e s)), (sameb n t (swap_state h e s)); cbn [only]; ring.
  - intros t. split.
    + intros (h & m & e & H1 & H2 & H3 & H4 & [-> | ->]); [exists (x (h, m, e)) | exists (- x (h, m, e))%Qc];
        apply in_flat_map; exists (h, m, e); (split; [apply I'; auto | cbn; auto]).
    + intros (y & H). apply in_flat_map in H. destruct H as ([[h m] e] & Hin & H). apply I' in Hin. exists h, m, e.
      destruct Hin as (A1 & A2 & A3 & A4). repeat (split; [assumption|]). destruct H as [[= _ <-]|[[= _ <-]|[]]]; auto.
Qed.

(** the whole dictionary *)
Lemma dynamic_ok : forall S, s_bij S = false -> exists dict, compute_dynamic_interactions E c K S d = Ok dict /\
  NoDup (map fst dict) /\
  (forall k, In k (map fst dict) <-> exists t, reached L S s t /\ determinant_of n (nholes c) (nbeta c) k t) /\
  (forall k x t, In (k, x) dict -> describes n (nholes c) (nbeta c) k t ->
     x = tj_element L K (dynamic S) s t) /\
  (forall t, sec t -> (forall k, determinant_of n (nholes c) (nbeta c) k t -> ~ In k (map fst dict)) ->
     tj_element L K (dynamic S) s t = 0%Qc).
Proof.
  intros S B0. destruct hop_lists as (ih & Eh & Lh). destruct next_lists as (ic & io & En & Ln).
  destruct singlet_lists as (sa & sp & Es & Ls).
  set (evt := if s_bt S then [(ih, i_t K)] else []).
  set (evn := if s_btN S then [(ic, i_tnNNN K); (io, i_tNNN K)] else []).
  set (evs := if s_bSD S then [(sa, i_hSDpar K); (sp, i_hSDper K)] else []).
  set (FL := flat_events (evt ++ evn) ++ flat_pairs evs).
  exists (fold_left dict_step FL []).
  assert (Ec : compute_dynamic_interactions E c K S d = Ok (fold_left dict_step FL [])).
  { unfold compute_dynamic_interactions. rewrite Eh, En, Es, B0. cbn [bind].
    replace (if s_bt S then Ok [(ih, i_t K)] else Ok []) with (Ok evt) by (unfold evt; now destruct (s_bt S)).
    replace (if s_btN S then Ok [(ic, i_tnNNN K); (io, i_tNNN K)] else Ok []) with (Ok evn) by (unfold evn; now destruct (s_btN S)).
    replace (if s_bSD S then Ok [(sa, i_hSDpar K); (sp, i_hSDper K)] else Ok []) with (Ok evs) by (unfold evs; now destruct (s_bSD S)).
    cbn [bind]. rewrite app_nil_r, events_fold, pairs_fold, <- fold_left_app. reflexivity. }
  split; [exact Ec|]. clear Ec.
  assert (LF : lists FL (fun t => tj_element L K (dynamic S) s t) (reached L S s)).
  { assert (G : lists FL (fun t => (only (s_bt S) (op_hop L K s t) + (only (s_btN S) (op_next_hop L K s t) +
        only (s_bSD S) (op_singlet L K s t)))%Qc)
      (fun t => (s_bt S = true /\ exists h e, 0 <= h < n /\ 0 <= e < n /\ lat_from L h && lat_to L e && bonded L h e && holeb (s h) && negb (holeb (s e)) = true /\ t = swap_state h e s) \/
        (s_btN S = true /\ exists h e, 0 <= h < n /\ 0 <= e < n /\ lat_from L h && lat_to L e && two_bonds L h e && holeb (s h) && negb (holeb (s e)) = true /\ t = swap_state h e s) \/
        (s_bSD S = true /\ exists h m e, 0 <= h < n /\ 0 <= m < n /\ 0 <= e < n /\
           lat_from L h && lat_to L m && lat_to L e && bonded L h m && bonded L m e && holeb (s h) && oppositeb (s m) (s e) = true /\
           (t = shift_state h m e s \/ t = swap_state h e s)))).
    { unfold FL, flat_events. rewrite !flat_map_app, <- !app_assoc. unfold evt, evn, evs.
      pose proof (fun (b : bool) l o P H => lists_if b l o P (fun _ => H)) as LI.
      pose proof (LI (s_bt S) _ _ _ Lh) as L1. pose proof (LI (s_btN S) _ _ _ Ln) as L2.
      pose proof (LI (s_bSD S) _ _ _ Ls) as L4.
      pose proof (lists_app _ _ _ _ _ _ L1 (lists_app _ _ _ _ _ _ L2 L4)) as G. clear - G.
      destruct (s_bt S), (s_btN S), (s_bSD S); exact G. }
    destruct G as (ts & A & B & C & D). exists ts. split; [assumption|]. split; [assumption|]. split.
    - intros t. rewrite C. unfold tj_element. cbn [dynamic s_bt s_bz s_bij s_bSD s_btN s_bV].
      rewrite B0. destruct (s_bt S), (s_btN S), (s_bSD S); cbn [only]; ring.
    - intros t. rewrite <- D. split.
      + intros H. destruct H as [h e H1 H2 H3 H4 H5 H6 H7 H8|h e H1 H2 H3 H4 H5 H6 H7 H8|i j H1 H2 H3 H4|h m e t H1 H2 H3 H4 H5 H6 H7 H8 H9 H10 H11 H12]; rewrite HLs in *.
        * left. split; [assumption|]. exists h, e. rewrite H4, H5, H6, H7, (not_hole e H8). auto.
        * right. left. split; [assumption|]. exists h, e. rewrite H4, H5, H6, H7, (not_hole e H8). auto.
        * congruence.
        * right. right. split; [assumption|]. exists h, m, e. apply oppositeb_iff in H11. rewrite H5, H6, H7, H8, H9, H10, H11. auto.
      + intros [(S1 & h & e & H1 & H2 & H3 & ->)|[(S1 & h & e & H1 & H2 & H3 & ->)|(S1 & h & m & e & H1 & H2 & H3 & H4 & H5)]].
        * rewrite !andb_true_iff, negb_true_iff, holeb_iff in H3. destruct H3 as ((((A1 & A2) & A3) & A4) & A5). apply by_hop; rewrite ?HLs; try assumption. now apply hole_not.
        * rewrite !andb_true_iff, negb_true_iff, holeb_iff in H3. destruct H3 as ((((A1 & A2) & A3) & A4) & A5). apply by_next_hop; rewrite ?HLs; try assumption. now apply hole_not.
        * rewrite !andb_true_iff, oppositeb_iff, holeb_iff in H4. destruct H4 as ((((((A1 & A2) & A3) & A4) & A5) & A6) & A7).
          apply (by_crossing L S s h m e); rewrite ?HLs; assumption. }
  destruct LF as (ts & A & B & C & D). destruct (dict_fold FL) as (ND & KI & KV). split; [assumption|].
  assert (KD : forall k, In k (map fst FL) <-> exists x t, In (x, t) ts /\ k = canon n t).
  { intros k. transitivity (In k (map fst (PDyn.keyed c ts))).
    { split; apply Permutation_in; [|symmetry]; now apply Permutation_map. }
    unfold PDyn.keyed. rewrite map_map, in_map_iff. cbn [fst]. split.
    - intros ([x t] & <- & H). eauto.
    - intros (x & t & H & ->). exists (x, t). auto. }
  assert (SAME : forall k t u, describes n (nholes c) (nbeta c) k t -> sec u -> k = canon n u -> same_state n t u).
  { intros k t u D1 S1 ->. pose proof (canon_describes _ _ _ _ S1) as D2. exact (describes_unique _ _ _ _ _ _ D1 D2). }
  split; [|split].
  - intros k. rewrite KI, KD. split.
    + intros (x & t & H & ->). exists t. split; [apply D; eauto|]. pose proof (B x t H) as S1. split; [apply canon_describes, S1 | apply canon_increasing, S1].
    + intros (t & H & D1 & I1). apply D in H. destruct H as (x & H). exists x, t. split; [assumption|].
      eapply increasing_canon; eauto.
  - intros k x t H Dk. rewrite (KV k x H). rewrite <- C.
    assert (Hk : In k (map fst FL)) by (apply KI; apply in_map_iff; exists (k, x); auto).
    apply KD in Hk. destruct Hk as (x0 & u & Hu & ->).
    unfold total, PDyn.ampl. rewrite (qsum_perm _ _ _ _ A). unfold PDyn.keyed. rewrite qsum_map. cbn [fst snd]. apply qsum_ext. intros [y v] Hy. cbn [fst snd]. f_equal.
    pose proof (SAME _ _ _ Dk (B _ _ Hu) eq_refl) as Q. fold n. apply eq_true_iff_eq. rewrite zlist_eqb_eq, sameb_iff. split.
    + intros Q'. apply canon_inj with (1 := B _ _ Hy) (2 := B _ _ Hu) in Q'. intros z Hz. rewrite (Q z Hz). symmetry. now apply Q'.
    + intros Q'. apply canon_same. intros z Hz. rewrite <- (Q z Hz). symmetry. now apply Q'.
  - intros t St H. rewrite <- C. unfold PDyn.ampl. apply qsum_zero. intros [x u] Hu. cbn [fst snd]. fold n.
    destruct (sameb n t u) eqn:Q; [|reflexivity]. exfalso. apply sameb_iff in Q. apply (H (canon n t)).
    + split; [apply canon_describes, St | apply canon_increasing, St].
    + apply KI, KD. exists x, u. split; [assumption|]. now apply canon_same.
Qed.
End Dyn.
