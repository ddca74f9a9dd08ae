(** The extended t-J operator on occupations, written with sums over sites.
    Only the records of couplings and switches are taken from the model. *)
From Coq Require Import ZArith List Bool QArith Qcanon.
From Verif Require Import Spec SpecOps Interact.
Import ListNotations.
Open Scope Z_scope.

Definition qsum {A} (f : A -> Qc) (l : list A) : Qc := fold_right (fun x a => (f x + a)%Qc) 0%Qc l.
Definition sites (n : Z) : list Z := map Z.of_nat (seq 0 (Z.to_nat n)).
(** sum over the sites *)
Definition sum_sites (n : Z) (f : Z -> Qc) : Qc := qsum f (sites n).
(** [x] when the condition holds *)
Definition only (b : bool) (x : Qc) : Qc := if b then x else 0%Qc.

Definition holeb (p : particle) : bool := match p with Hole => true | _ => false end.
Definition oppositeb (p q : particle) : bool :=
  match p, q with Up, Down | Down, Up => true | _, _ => false end.
Definition bondb (p q : Z * Z) : bool := Z.abs (fst p - fst q) + Z.abs (snd p - snd q) =? 1.
Definition lineb2 (p q : Z * Z) : bool := (fst p =? fst q) || (snd p =? snd q).
Definition lineb3 (p q r : Z * Z) : bool :=
  ((fst p =? fst q) && (fst q =? fst r)) || ((snd p =? snd q) && (snd q =? snd r)).
Definition diagb (p q : Z * Z) : bool := (Z.abs (fst p - fst q) =? 1) && (Z.abs (snd p - snd q) =? 1).
Definition samep (p q : particle) : bool := if particle_eq_dec p q then true else false.
(** the two states agree on the [n] sites *)
Definition sameb (n : Z) (s t : occupation) : bool := forallb (fun x => samep (s x) (t x)) (sites n).

(** Sites at [lat_pos 0], ..., [lat_pos (n - 1)].  Holes and first ends of bonds are looked for
    among [lat_from]; their partners, and second ends of bonds, among [lat_to]. *)
Record lattice : Type := mkLattice { lat_size : Z; lat_pos : Z -> Z * Z; lat_from : Z -> bool; lat_to : Z -> bool }.

(** Where the holes are, seen from a bond. *)
Inductive doping : Type := Aligned | Beside | Away.

Section Operator.
Variable L : lattice.
Let n := lat_size L.
Let Sum := sum_sites n.
Definition bonded (x y : Z) : bool := bondb (lat_pos L x) (lat_pos L y).

(** a hole next to one end of the bond [i - j] *)
Definition hole_near (s : occupation) (i j z : Z) : bool :=
  lat_from L z && holeb (s z) && (bonded z i || bonded z j).
Definition bond_doping (s : occupation) (i j : Z) : doping :=
  if existsb (fun z => hole_near s i j z && lineb3 (lat_pos L z) (lat_pos L i) (lat_pos L j)) (sites n) then Aligned
  else if existsb (hole_near s i j) (sites n) then Beside else Away.
Definition exchange (K : interactions) (k : doping) : Qc :=
  match k with Aligned => i_Jhpar K | Beside => i_Jhper K | Away => i_J K end.

(** bonds between opposite spins *)
Definition spin_bond (s : occupation) (i j : Z) : bool :=
  (i <? j) && lat_from L i && lat_to L j && bonded i j && oppositeb (s i) (s j).

Definition half : Qc := Q2Qc (1 # 2).

(** [J (Sz Sz - 1/4)] *)
Definition op_static (K : interactions) (s : occupation) : Qc :=
  Sum (fun i => Sum (fun j =>
    only (spin_bond s i j) (- (half * exchange K (bond_doping s i j)))%Qc)).
(** [J/2 (S+ S- + S- S+)] *)
Definition op_flip (K : interactions) (s t : occupation) : Qc :=
  Sum (fun i => Sum (fun j =>
    only (spin_bond s i j && sameb n t (swap_state i j s)) (half * exchange K (bond_doping s i j))%Qc)).
(** hole and electron exchanged across a bond *)
Definition op_hop (K : interactions) (s t : occupation) : Qc :=
  Sum (fun h => Sum (fun e =>
    only (lat_from L h && lat_to L e && bonded h e && holeb (s h) && negb (holeb (s e)) && sameb n t (swap_state h e s)) (i_t K))).
(** hole and electron exchanged across two bonds *)
Definition two_bonds (x y : Z) : bool := existsb (fun m => bonded x m && bonded m y) (sites n).
Definition op_next_hop (K : interactions) (s t : occupation) : Qc :=
  Sum (fun h => Sum (fun e =>
    only (lat_from L h && lat_to L e && two_bonds h e && holeb (s h) && negb (holeb (s e)) && sameb n t (swap_state h e s))
         (if lineb2 (lat_pos L h) (lat_pos L e) then i_tnNNN K else i_tNNN K))).
(** a hole crosses a singlet of two opposite spins *)
Definition op_singlet (K : interactions) (s t : occupation) : Qc :=
  Sum (fun h => Sum (fun m => Sum (fun e =>
    only (lat_from L h && lat_to L m && lat_to L e && bonded h m && bonded m e && holeb (s h) && oppositeb (s m) (s e))
         ((if lineb2 (lat_pos L h) (lat_pos L e) then i_hSDpar K else i_hSDper K)
          * (only (sameb n t (shift_state h m e s)) 1 - only (sameb n t (swap_state h e s)) 1))%Qc))).
(** repulsion of holes *)
Definition op_repulsion (K : interactions) (s : occupation) : Qc :=
  Sum (fun i => Sum (fun j =>
    only ((i <? j) && lat_from L i && lat_from L j && holeb (s i) && holeb (s j))
         (only (bonded i j) (i_VNN K) + only (diagb (lat_pos L i) (lat_pos L j)) (i_VNNNper K))%Qc)).

(** matrix element between [s] and [t] *)
Definition tj_element (K : interactions) (S : switches) (s t : occupation) : Qc :=
  (only (s_bt S) (op_hop K s t)
   + only (s_bz S) (only (sameb n s t) (op_static K s))
   + only (s_bij S) (op_flip K s t)
   + only (s_bSD S) (op_singlet K s t)
   + only (s_btN S) (op_next_hop K s t)
   + only (s_bV S) (only (sameb n s t) (op_repulsion K s)))%Qc.

(** The same with another rule [rule] for the exchange of a flipped bond. *)
Definition op_flip_by (rule : occupation -> Z -> Z -> doping) (K : interactions) (s t : occupation) : Qc :=
  Sum (fun i => Sum (fun j =>
    only (spin_bond s i j && sameb n t (swap_state i j s)) (half * exchange K (rule s i j))%Qc)).
Definition tj_by (rule : occupation -> Z -> Z -> doping) (K : interactions) (S : switches) (s t : occupation) : Qc :=
  (only (s_bt S) (op_hop K s t)
   + only (s_bz S) (only (sameb n s t) (op_static K s))
   + only (s_bij S) (op_flip_by rule K s t)
   + only (s_bSD S) (op_singlet K s t)
   + only (s_btN S) (op_next_hop K s t)
   + only (s_bV S) (only (sameb n s t) (op_repulsion K s)))%Qc.
(** A rule that looks at the numbers of the sites: a hole is aligned when its number is as far from the end it neighbours as the other end. *)
Definition number_doping (s : occupation) (i j : Z) : doping :=
  let far z x := bonded z x && (Z.abs (z - x) =? Z.abs (j - i)) in
  if existsb (fun z => lat_from L z && holeb (s z) && (far z i || far z j)) (sites n) then Aligned
  else if existsb (hole_near s i j) (sites n) then Beside else Away.
End Operator.

(** Sites restricted to two lists. *)
Definition between (n : Z) (p : Z -> Z * Z) (r0 r1 : list Z) : lattice :=
  mkLattice n p (fun x => existsb (Z.eqb x) r0) (fun x => existsb (Z.eqb x) r1).
(** All sites. *)
Definition whole (n : Z) (p : Z -> Z * Z) : lattice := mkLattice n p (fun _ => true) (fun _ => true).

(** [a K + b K'] *)
Definition combine_couplings (a b : Qc) (K K' : interactions) : interactions :=
  let mix p := (a * p K + b * p K')%Qc in
  mkInter (mix i_t) (mix i_J) (mix i_Jhpar) (mix i_Jhper) (mix i_hSDpar) (mix i_hSDper) (mix i_tNNN) (mix i_tnNNN)
    (mix i_VNN) (mix i_VNNNper).

(** Without the diagonal terms. *)
Definition dynamic (S : switches) : switches :=
  mkSwitches (s_bt S) false (s_bij S) (s_bSD S) (s_btN S) false.

(** States coupled to [s] by one of the moves. *)
Inductive reached (L : lattice) (S : switches) (s : occupation) : occupation -> Prop :=
| by_hop : forall h e, s_bt S = true -> 0 <= h < lat_size L -> 0 <= e < lat_size L ->
    lat_from L h = true -> lat_to L e = true -> bonded L h e = true -> s h = Hole -> s e <> Hole ->
    reached L S s (swap_state h e s)
| by_next_hop : forall h e, s_btN S = true -> 0 <= h < lat_size L -> 0 <= e < lat_size L ->
    lat_from L h = true -> lat_to L e = true -> two_bonds L h e = true -> s h = Hole -> s e <> Hole ->
    reached L S s (swap_state h e s)
| by_flip : forall i j, s_bij S = true -> 0 <= i < lat_size L -> 0 <= j < lat_size L -> spin_bond L s i j = true ->
    reached L S s (swap_state i j s)
| by_crossing : forall h m e t, s_bSD S = true -> 0 <= h < lat_size L -> 0 <= m < lat_size L -> 0 <= e < lat_size L ->
    lat_from L h = true -> lat_to L m = true -> lat_to L e = true -> bonded L h m = true -> bonded L m e = true ->
    s h = Hole -> opposite (s m) (s e) -> t = shift_state h m e s \/ t = swap_state h e s ->
    reached L S s t.
