(** Couplings and energies on any drawing (C27, C41). *)
From Coq Require Import ZArith List Bool Lia QArith Qcanon.
From Verif Require Import PyBase PyFacts Runtimes Lattice Base Interact Spec SpecOps SpecTJ Geometry
  PBasis PSites PGeo PInter PSpin PRep FBasis FSites FInter PDynGen Examples.
Import ListNotations.
Open Scope Z_scope.

Lemma C27_drawn_pf : forall E c pos r0 r1 d s K,
  set_iter_ok E -> drawn c pos -> straightness_decided E c pos ->
  (forall x y, 0 <= x < nsites c -> 0 <= y < nsites c -> diagonal (pos x) (pos y) -> exists m, path (nsites c) pos x m y) ->
  sites_restriction c = RTuple r0 r1 -> incl r0 r1 ->
  describes (nsites c) (nholes c) (nbeta c) d s ->
  let L := between (nsites c) pos r0 r1 in
  compute_energy E c K d = Ok (op_static L K s + op_repulsion L K s)%Qc.
Proof.
  intros E c pos r0 r1 d s K HE HD HL HM HR HI Hd L. unfold compute_energy.
  rewrite (C24_static_spin_pf E c pos r0 r1 d s K HE HD HL HR Hd).
  rewrite (repulsion_ok E c pos r0 r1 d s HE HD HR) with (L := L); try assumption; try reflexivity.
  - intros x _. apply HI.
  - intros. apply between_ok.
Qed.

Lemma C41_drawn_pf : forall E c pos r0 r1 K S d s, set_iter_ok E -> drawn c pos -> straightness_decided E c pos ->
  sites_restriction c = RTuple r0 r1 -> describes (nsites c) (nholes c) (nbeta c) d s ->
  (forall e, In e r1 -> s e = Hole -> In e r0) -> s_bij S = false ->
  let L := between (nsites c) pos r0 r1 in
  exists dict, compute_dynamic_interactions E c K S d = Ok dict /\ NoDup (map fst dict) /\
    (forall k, In k (map fst dict) <-> exists t, reached L S s t /\ determinant_of (nsites c) (nholes c) (nbeta c) k t) /\
    (forall k x t, In (k, x) dict -> describes (nsites c) (nholes c) (nbeta c) k t -> x = tj_element L K (dynamic S) s t) /\
    (forall k t, determinant_of (nsites c) (nholes c) (nbeta c) k t -> ~ In k (map fst dict) -> tj_element L K (dynamic S) s t = 0%Qc).
Proof.
  intros E c pos r0 r1 K S d s HE HD HL HR Hd HX HB L.
  destruct (dynamic_ok E c pos r0 r1 K d s HE HD HL HR Hd HX L eq_refl (fun _ _ => eq_refl)
    (fun x _ => proj1 (between_ok (nsites c) pos r0 r1 x)) (fun x _ => proj2 (between_ok (nsites c) pos r0 r1 x)) S HB) as (dict & A & B & C & F & G).
  exists dict. split; [assumption|]. split; [assumption|]. split; [exact C|]. split; [exact F|].
  intros k t Hk N. apply G.
  - destruct Hk as [Hk _]. eapply describes_sector, Hk.
  - intros k' Hk'. assert (k' = k) as ->; [|exact N]. destruct Hk as [H1 H2], Hk' as [H3 H4].
    rewrite (increasing_canon _ _ _ _ _ H1 H2). now rewrite (increasing_canon _ _ _ _ _ H3 H4).
Qed.

(** two squares of four sites side by side, holes of the left one and electrons of the right one *)
Definition ex_halves : configuration :=
  get empty_conf (bm <- build_bond_matrix_block_embedding 1 1 2 ;; make_configuration bm 1 3 (RTuple (zrange 0 4) (zrange 4 8)) Clusters 2 1 2).
Definition ex_halves_state : occupation := fun x => nth (Z.to_nat x) [Up; Hole; Up; Down; Up; Down; Up; Down] Hole.

Lemma same_drawn : forall E c c' pos, bond_matrix c' = bond_matrix c -> nsites c' = nsites c -> lattice_type c' = lattice_type c ->
  nbh c' = nbh c -> nbv c' = nbv c -> nblocs_side c' = nblocs_side c ->
  drawn c pos /\ straightness_decided E c pos -> drawn c' pos /\ straightness_decided E c' pos.
Proof.
  intros E [] [] pos. cbn. intros -> -> -> -> -> -> H. exact H.
Qed.

Lemma ex_halves_drawn : drawn ex_halves (fun x => point 4 (ex_iso x)) /\
  straightness_decided ex_clusters_runtime ex_halves (fun x => point 4 (ex_iso x)).
Proof.
  apply (same_drawn _ ex_clusters); [vm_compute; reflexivity | vm_compute; reflexivity | vm_compute; reflexivity | vm_compute; reflexivity | vm_compute; reflexivity | vm_compute; reflexivity |]. exact ex_clusters_drawn.
Qed.

Lemma ex_clusters_middle : forall x y, 0 <= x < nsites ex_clusters -> 0 <= y < nsites ex_clusters ->
  diagonal (point 4 (ex_iso x)) (point 4 (ex_iso y)) -> exists m, path (nsites ex_clusters) (fun x => point 4 (ex_iso x)) x m y.
Proof.
  change (nsites ex_clusters) with 8.
  assert (B : forallb (fun x => forallb (fun y => implb (diagb (point 4 (ex_iso x)) (point 4 (ex_iso y)))
    (existsb (fun m => negb (x =? y) && bondb (point 4 (ex_iso x)) (point 4 (ex_iso m)) && bondb (point 4 (ex_iso m)) (point 4 (ex_iso y))) (zrange 0 8)))
    (zrange 0 8)) (zrange 0 8) = true) by (vm_compute; reflexivity).
  intros x y Hx Hy D. pose proof (forall_zrange2 8 _ B x y Hx Hy) as G. cbv beta in G. apply diagb_iff in D.
  rewrite D in G. cbn [implb] in G. apply existsb_exists in G. destruct G as (m & Hm & G). apply in_zrange in Hm.
  rewrite !andb_true_iff, negb_true_iff, Z.eqb_neq, !bondb_iff in G. unfold path. exists m. intuition.
Qed.
