(** Theorems on the interactions applied to one determinant (C22-C27). *)
From Coq Require Import ZArith List Bool Permutation QArith Qcanon.
From Verif Require Import PyBase PyFacts Runtimes Lattice Base Interact Spec SpecOps SpecTJ Geometry FGeo FInter FDraw Examples.
Import ListNotations.
Open Scope Z_scope.

(** 3x3 sites, holes on 0 and 4:
<<
    D U U        6 7 8
    U H D        3 4 5
    H D U        0 1 2
>> *)
Definition ex33_state : occupation :=
  fun x => if (x =? 0) || (x =? 4) then Hole else if (x =? 1) || (x =? 5) || (x =? 6) then Down else Up.
Definition ex33 : configuration := ex_rect 3 3 1 2 3.
Definition ex33_det : list Z := [0; 4; 1; 5; 6; 2; 3; 7; 8].

Example ex33_ok :
  row_major ex33 3 /\ sites_restriction ex33 = RTuple (zrange 0 9) (zrange 0 9) /\
  describes (nsites ex33) (nholes ex33) (nbeta ex33) ex33_det ex33_state.
Proof.
  split; [exists 3, 3, 1; vm_compute; repeat (split; [congruence|]); reflexivity|].
  split; [reflexivity|]. apply describesb_ok. vm_compute. reflexivity.
Qed.

(** C22 *)
Theorem C22_hopping :
  forall E c pos r0 r1 d s,
  set_iter_ok E -> drawn c pos -> sites_restriction c = RTuple r0 r1 ->
  describes (nsites c) (nholes c) (nbeta c) d s ->
  exists moves images, compute_hopping_integral E c d = Ok images /\ NoDup moves /\
    (forall h e, In (h, e) moves <->
       0 <= h < nsites c /\ 0 <= e < nsites c /\ adjacent (pos h) (pos e) /\ In h r0 /\ In e r1 /\
       s h = Hole /\ ~ (s e = Hole /\ In e r0)) /\
    Forall2 (fun m im => determinant_of (nsites c) (nholes c) (nbeta c) im (swap_state (fst m) (snd m) s)) moves images.
Proof. exact C22_hopping_pf. Qed.
Print Assumptions C22_hopping.

Theorem C22_hopping_symmetric :
  forall E c pos r d s,
  set_iter_ok E -> drawn c pos -> sites_restriction c = RTuple r r ->
  describes (nsites c) (nholes c) (nbeta c) d s ->
  exists moves images, compute_hopping_integral E c d = Ok images /\ NoDup moves /\
    (forall h e, In (h, e) moves <->
       0 <= h < nsites c /\ 0 <= e < nsites c /\ adjacent (pos h) (pos e) /\ In h r /\ In e r /\
       s h = Hole /\ s e <> Hole) /\
    Forall2 (fun m im => determinant_of (nsites c) (nholes c) (nbeta c) im (swap_state (fst m) (snd m) s)) moves images.
Proof. exact C22_hopping_symmetric_pf. Qed.
Print Assumptions C22_hopping_symmetric.

Example C22_example :
  drawn ex33 (point 3) /\
  compute_hopping_integral cpython ex33 ex33_det =
  Ok [[1; 4; 0; 5; 6; 2; 3; 7; 8]; [3; 4; 1; 5; 6; 0; 2; 7; 8]; [0; 1; 4; 5; 6; 2; 3; 7; 8];
      [0; 3; 1; 5; 6; 2; 4; 7; 8]; [0; 5; 1; 4; 6; 2; 3; 7; 8]; [0; 7; 1; 5; 6; 2; 3; 4; 8]].
Proof. split; [apply row_major_drawn, ex33_ok|]. vm_compute. reflexivity. Qed.

Theorem C22_hole_onto_hole_refuted :
  exists E c pos d s,
  set_iter_ok E /\ drawn c pos /\ sites_restriction c = RTuple [0] [1] /\
  describes (nsites c) (nholes c) (nbeta c) d s /\ s 0 = Hole /\ s 1 = Hole /\
  compute_hopping_integral E c d = Ok [d].
Proof. exact C22_hole_onto_hole_refuted_pf. Qed.
Print Assumptions C22_hole_onto_hole_refuted.

(** C23 *)
Theorem C23_next_hopping :
  forall E c pos r0 r1 d s,
  set_iter_ok E -> drawn c pos -> straightness_decided E c pos -> sites_restriction c = RTuple r0 r1 ->
  describes (nsites c) (nholes c) (nbeta c) d s ->
  exists col ortho images_col images_ortho,
    compute_next_hopping_integral E c d = Ok (images_col, images_ortho) /\ NoDup (col ++ ortho) /\
    (forall h e, In (h, e) (col ++ ortho) <->
       In h r0 /\ In e r1 /\ s h = Hole /\ s e <> Hole /\ exists m, path (nsites c) pos h m e) /\
    (forall h e, In (h, e) col -> in_line (pos h) (pos e)) /\
    (forall h e, In (h, e) ortho -> ~ in_line (pos h) (pos e)) /\
    Forall2 (fun m im => determinant_of (nsites c) (nholes c) (nbeta c) im (swap_state (fst m) (snd m) s)) col images_col /\
    Forall2 (fun m im => determinant_of (nsites c) (nholes c) (nbeta c) im (swap_state (fst m) (snd m) s)) ortho images_ortho.
Proof. exact C23_next_hopping_pf. Qed.
Print Assumptions C23_next_hopping.

Example C23_example :
  straightness_decided cpython ex33 (point 3) /\
  compute_next_hopping_integral cpython ex33 ex33_det =
  Ok ([[2; 4; 1; 5; 6; 0; 3; 7; 8]; [4; 6; 0; 1; 5; 2; 3; 7; 8]],
      [[0; 2; 1; 5; 6; 3; 4; 7; 8]; [0; 6; 1; 4; 5; 2; 3; 7; 8]; [0; 8; 1; 5; 6; 2; 3; 4; 7]]).
Proof. split; [apply row_major_straight, ex33_ok|]. vm_compute. reflexivity. Qed.

(** C24 *)
Theorem C24_static_spin :
  forall E c pos r0 r1 d s K,
  set_iter_ok E -> drawn c pos -> straightness_decided E c pos -> sites_restriction c = RTuple r0 r1 ->
  describes (nsites c) (nholes c) (nbeta c) d s ->
  compute_static_spin_interaction E c K d = Ok (op_static (between (nsites c) pos r0 r1) K s).
Proof. exact C24_static_spin_pf. Qed.
Print Assumptions C24_static_spin.

Example C24_example :
  let L := between 9 (point 3) (zrange 0 9) (zrange 0 9) in
  map (fun b => bond_doping L ex33_state (fst b) (snd b)) [(1, 2); (2, 5); (5, 8); (3, 6); (6, 7)]
    = [Aligned; Beside; Beside; Aligned; Beside] /\
  compute_static_spin_interaction cpython ex33 ex_couplings ex33_det = Ok (- qz 9)%Qc /\
  compute_static_spin_interaction cpython (ex_rect 3 3 1 0 1) ex_couplings [4; 0; 1; 2; 3; 5; 6; 7; 8] = Ok (- qz 4)%Qc.
Proof. vm_compute. auto. Qed.

(** C25 *)
Theorem C25_spin_flip :
  forall E c w r0 r1 d s,
  set_iter_ok E -> row_major c w -> sites_restriction c = RTuple r0 r1 ->
  describes (nsites c) (nholes c) (nbeta c) d s ->
  let L := between (nsites c) (point w) r0 r1 in
  exists bonds images,
    compute_spin_flip E c d = Ok (images Aligned, images Beside, images Away) /\
    forall k, NoDup (bonds k) /\
      (forall i j, In (i, j) (bonds k) <->
         0 <= i < j /\ j < nsites c /\ In i r0 /\ In j r1 /\ adjacent (point w i) (point w j) /\
         opposite (s i) (s j) /\ bond_doping L s i j = k) /\
      Forall2 (fun b im => determinant_of (nsites c) (nholes c) (nbeta c) im (swap_state (fst b) (snd b) s)) (bonds k) (images k).
Proof. exact C25_spin_flip_pf. Qed.
Print Assumptions C25_spin_flip.

Theorem C25_same_class :
  forall E c w r0 r1 d s i j,
  set_iter_ok E -> row_major c w -> sites_restriction c = RTuple r0 r1 ->
  describes (nsites c) (nholes c) (nbeta c) d s ->
  0 <= i < j -> j < nsites c -> adjacent (point w i) (point w j) -> s i <> Hole -> s j <> Hole ->
  exists k, static_class E c d i j = Ok k /\ flip_class E c d i j = Ok k.
Proof. exact C25_same_class_pf. Qed.
Print Assumptions C25_same_class.

Example C25_example :
  compute_spin_flip cpython ex33 ex33_det =
  Ok ([[0; 4; 2; 5; 6; 1; 3; 7; 8]; [0; 4; 1; 3; 5; 2; 6; 7; 8]],
      [[0; 4; 1; 2; 6; 3; 5; 7; 8]; [0; 4; 1; 6; 8; 2; 3; 5; 7]; [0; 4; 1; 5; 7; 2; 3; 6; 8]], []) /\
  static_class cpython ex33 ex33_det 1 2 = Ok Par /\ flip_class cpython ex33 ex33_det 1 2 = Ok Par /\
  static_class cpython ex33 ex33_det 2 5 = Ok Per /\ flip_class cpython ex33 ex33_det 2 5 = Ok Per.
Proof. vm_compute. auto. Qed.

(** Two blocks side by side, and a block with its ring: the two classifications differ. *)
Theorem C25_clusters_refuted :
  exists E c pos d s i j, lattice_type c = Clusters /\ disagreement E c pos d s i j.
Proof. exact C25_clusters_refuted_pf. Qed.
Print Assumptions C25_clusters_refuted.

Theorem C25_peripheral_refuted :
  exists E c pos d s i j, lattice_type c = Peripheral /\ disagreement E c pos d s i j.
Proof. exact C25_peripheral_refuted_pf. Qed.
Print Assumptions C25_peripheral_refuted.

(** C26 *)
Theorem C26_singlet :
  forall E c pos r0 r1 d s,
  set_iter_ok E -> drawn c pos -> straightness_decided E c pos -> sites_restriction c = RTuple r0 r1 ->
  describes (nsites c) (nholes c) (nbeta c) d s ->
  exists par per images_par images_per,
    compute_singlet_displacement E c d = Ok (images_par, images_per) /\ NoDup (par ++ per) /\
    (forall h m e, In (h, m, e) (par ++ per) <->
       In h r0 /\ In m r1 /\ In e r1 /\ s h = Hole /\ opposite (s m) (s e) /\ path (nsites c) pos h m e) /\
    (forall h m e, In (h, m, e) par -> straight (pos h) (pos m) (pos e)) /\
    (forall h m e, In (h, m, e) per -> ~ straight (pos h) (pos m) (pos e)) /\
    let D := determinant_of (nsites c) (nholes c) (nbeta c) in
    let R := fun t im => let '(h, m, e) := t in D (fst im) (shift_state h m e s) /\ D (snd im) (swap_state h e s) in
    Forall2 R par images_par /\ Forall2 R per images_per.
Proof. exact C26_singlet_pf. Qed.
Print Assumptions C26_singlet.

Example C26_example :
  compute_singlet_displacement cpython ex33 ex33_det =
  Ok ([([2; 4; 0; 5; 6; 1; 3; 7; 8], [2; 4; 1; 5; 6; 0; 3; 7; 8]);
       ([4; 6; 1; 3; 5; 0; 2; 7; 8], [4; 6; 0; 1; 5; 2; 3; 7; 8])],
      [([0; 2; 4; 5; 6; 1; 3; 7; 8], [0; 2; 1; 5; 6; 3; 4; 7; 8]);
       ([0; 6; 1; 3; 5; 2; 4; 7; 8], [0; 6; 1; 4; 5; 2; 3; 7; 8]);
       ([0; 8; 1; 4; 6; 2; 3; 5; 7], [0; 8; 1; 5; 6; 2; 3; 4; 7]);
       ([0; 2; 1; 4; 6; 3; 5; 7; 8], [0; 2; 1; 5; 6; 3; 4; 7; 8]);
       ([0; 6; 1; 5; 7; 2; 3; 4; 8], [0; 6; 1; 4; 5; 2; 3; 7; 8])]).
Proof. vm_compute. reflexivity. Qed.

(** C27 *)
Theorem C27_repulsion :
  forall E c w r0 r1 d s K,
  set_iter_ok E -> row_major c w -> sites_restriction c = RTuple r0 r1 -> incl r0 r1 ->
  describes (nsites c) (nholes c) (nbeta c) d s ->
  compute_hole_repulsion E c K d = Ok (op_repulsion (between (nsites c) (point w) r0 r1) K s).
Proof. exact C27_repulsion_pf. Qed.
Print Assumptions C27_repulsion.

Theorem C27_energy :
  forall E c w r0 r1 d s K,
  set_iter_ok E -> row_major c w -> sites_restriction c = RTuple r0 r1 -> incl r0 r1 ->
  describes (nsites c) (nholes c) (nbeta c) d s ->
  let L := between (nsites c) (point w) r0 r1 in
  compute_energy E c K d = Ok (op_static L K s + op_repulsion L K s)%Qc.
Proof. exact C27_energy_pf. Qed.
Print Assumptions C27_energy.

Example C27_example :
  incl (zrange 0 9) (zrange 0 9) /\
  compute_hole_repulsion cpython ex33 ex_couplings ex33_det = Ok (qz 10) /\
  compute_hole_repulsion cpython (ex_rect 3 3 1 4 0) ex_couplings [0; 1; 3; 5; 2; 4; 6; 7; 8] = Ok (qz (2 * 9 + 2 * 10)) /\
  compute_energy cpython ex33 ex_couplings ex33_det = Ok (qz 1).
Proof. split; [intros x H; exact H|]. vm_compute. auto. Qed.

Theorem C27_drawn :
  forall E c pos r0 r1 d s K,
  set_iter_ok E -> drawn c pos -> straightness_decided E c pos ->
  (forall x y, 0 <= x < nsites c -> 0 <= y < nsites c -> diagonal (pos x) (pos y) -> exists m, path (nsites c) pos x m y) ->
  sites_restriction c = RTuple r0 r1 -> incl r0 r1 ->
  describes (nsites c) (nholes c) (nbeta c) d s ->
  let L := between (nsites c) pos r0 r1 in
  compute_energy E c K d = Ok (op_static L K s + op_repulsion L K s)%Qc.
Proof. exact C27_drawn_pf. Qed.
Print Assumptions C27_drawn.

(** two squares side by side, holes on the sites 1 and 6, on the two sides of their common border *)
Example C27_drawn_example :
  drawn ex_clusters (fun x => point 4 (ex_iso x)) /\ straightness_decided ex_clusters_runtime ex_clusters (fun x => point 4 (ex_iso x)) /\
  (forall x y, 0 <= x < nsites ex_clusters -> 0 <= y < nsites ex_clusters -> diagonal (point 4 (ex_iso x)) (point 4 (ex_iso y)) ->
     exists m, path (nsites ex_clusters) (fun x => point 4 (ex_iso x)) x m y) /\
  sites_restriction ex_clusters = RTuple (zrange 0 8) (zrange 0 8) /\
  match compute_energy ex_clusters_runtime ex_clusters ex_couplings [1; 3; 5; 7; 0; 2; 4; 6] with Ok x => this x | Err _ => 0%Q end = (-13 # 2)%Q /\
  match compute_energy ex_clusters_runtime (get empty_conf (make_configuration (bond_matrix ex_clusters) 2 3 (RList []) Clusters 2 1 2)) ex_couplings [1; 6; 3; 5; 7; 0; 2; 4]
  with Ok x => this x | Err _ => 0%Q end = 7%Q.
Proof.
  split; [apply ex_clusters_drawn|]. split; [apply ex_clusters_drawn|]. split; [exact ex_clusters_middle|].
  split; [vm_compute; reflexivity|]. split; vm_compute; reflexivity.
Qed.

Theorem C27_mixed_refuted :
  exists E1 E2 c w d s K r0 r1,
  set_iter_ok E1 /\ set_iter_ok E2 /\ row_major c w /\ sites_restriction c = RTuple r0 r1 /\
  describes (nsites c) (nholes c) (nbeta c) d s /\
  compute_hole_repulsion E1 c K d = Ok (i_VNN K) /\ compute_hole_repulsion E2 c K d = Ok (qz 0) /\ i_VNN K <> qz 0.
Proof. exact C27_mixed_refuted_pf. Qed.
Print Assumptions C27_mixed_refuted.
