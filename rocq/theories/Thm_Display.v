(** Theorems on the displays (C60-C62, C72). *)
From Coq Require Import ZArith List Bool QArith Qcanon.
From Verif Require Import PyBase PyFacts Lattice Base Prob Spec SpinDefs Examples FGeo Display DisplayDefs FDisplay FDisplayFail FDisplayRing.
Import ListNotations.
Open Scope Z_scope.

(** C60 *)
Theorem C60_shown :
  forall c d s, 0 <= nsites c -> describes (nsites c) (nholes c) (nbeta c) d s ->
  get_displayable_determinant (AsConf c) d = Ok (map (fun x => sign_of (s x)) (upto (nsites c))).
Proof. exact C60_shown_pf. Qed.
Print Assumptions C60_shown.

Theorem C60_distinct :
  forall c d1 d2 s1 s2, 0 <= nsites c ->
  describes (nsites c) (nholes c) (nbeta c) d1 s1 -> increasing_groups (nholes c) (nbeta c) d1 ->
  describes (nsites c) (nholes c) (nbeta c) d2 s2 -> increasing_groups (nholes c) (nbeta c) d2 ->
  get_displayable_determinant (AsConf c) d1 = get_displayable_determinant (AsConf c) d2 -> d1 = d2.
Proof. exact C60_distinct_pf. Qed.
Print Assumptions C60_distinct.

(** three columns and two rows: a hole on site 1, spins down on sites 0 and 5 *)
Definition ex32 : configuration := ex_rect 3 2 1 1 2.
Definition ex32_state : occupation := fun x => if x =? 1 then Hole else if (x =? 0) || (x =? 5) then Down else Up.
Example C60_example : describes (nsites ex32) (nholes ex32) (nbeta ex32) [1; 0; 5; 2; 3; 4] ex32_state /\
  increasing_groups (nholes ex32) (nbeta ex32) [1; 0; 5; 2; 3; 4] /\
  get_displayable_determinant (AsConf ex32) [1; 0; 5; 2; 3; 4] = Ok [45; 48; 43; 43; 43; 45].
Proof.
  split; [apply describesb_ok; vm_compute; reflexivity|]. split; [|vm_compute; reflexivity].
  exists [1], [0; 5], [2; 3; 4]. repeat split; repeat constructor.
Qed.

(** C61 *)
Theorem C61_rectangle :
  forall c d s w h, w = nblocs_side c * nbh c -> h = nblocs_side c * nbv c -> 1 <= w -> 1 <= h -> w * h <= nsites c ->
  describes (nsites c) (nholes c) (nbeta c) d s ->
  get_displayable_rectangular_lattice (AsConf c) d = Ok (paragraph (rectangle_lines w h s)).
Proof. exact C61_rectangle_pf. Qed.
Print Assumptions C61_rectangle.

Theorem C61_point :
  forall w h s x, 1 <= w -> 0 <= x < w * h ->
  let '(X, Y) := point w x in
  0 <= X < w /\ 0 <= Y < h /\ nth (Z.to_nat (3 * X)) (nth (Z.to_nat (2 * (h - 1 - Y))) (rectangle_lines w h s) []) 0 = arrow_of (s x).
Proof. exact C61_point_pf. Qed.
Print Assumptions C61_point.

Theorem C61_neighbor :
  forall cA cB dA dB sA sB wA hA wB hB,
  wA = nblocs_side cA * nbh cA -> hA = nblocs_side cA * nbv cA -> 1 <= wA -> 1 <= hA -> wA * hA <= nsites cA ->
  wB = nblocs_side cB * nbh cB -> hB = nblocs_side cB * nbv cB -> 1 <= wB -> 1 <= hB -> wB * hB <= nsites cB ->
  describes (nsites cA) (nholes cA) (nbeta cA) dA sA -> describes (nsites cB) (nholes cB) (nbeta cB) dB sB ->
  get_displayable_neighbor (AsConf cA) (AsConf cB) dA dB =
    Ok (concat (map (fun r => rectangle_line wA hA sA r ++ [32] ++ rectangle_line wB hB sB r ++ [10]) (upto (2 * Z.min hA hB - 1)))).
Proof. exact C61_neighbor_pf. Qed.
Print Assumptions C61_neighbor.

Theorem C61_unsized :
  forall c d s, nblocs_side c = 0 -> describes (nsites c) (nholes c) (nbeta c) d s ->
  get_displayable_rectangular_lattice (AsConf c) d = Err ValueError.
Proof. exact C61_unsized_pf. Qed.
Print Assumptions C61_unsized.

Example C61_example : nblocs_side ex32 * nbh ex32 = 3 /\ nblocs_side ex32 * nbv ex32 = 2 /\ 3 * 2 <= nsites ex32 /\
  describes (nsites ex32) (nholes ex32) (nbeta ex32) [1; 0; 5; 2; 3; 4] ex32_state /\
  get_displayable_rectangular_lattice (AsConf ex32) [1; 0; 5; 2; 3; 4] =
    Ok ([8593; 45; 45; 8593; 45; 45; 8595; 10] ++ [124; 32; 32; 124; 32; 32; 124; 10] ++ [8595; 45; 45; 48; 45; 45; 8593]) /\
  get_displayable_neighbor (AsConf ex22) (AsConf ex22) [0; 1; 2; 3] [3; 2; 0; 1] =
    Ok ([8593; 45; 45; 8593; 32; 8595; 45; 45; 48; 10] ++ [124; 32; 32; 124; 32; 124; 32; 32; 124; 10] ++ [48; 45; 45; 8595; 32; 8593; 45; 45; 8593; 10]).
Proof.
  split; [vm_compute; reflexivity|]. split; [vm_compute; reflexivity|]. split; [vm_compute; discriminate|].
  split; [apply describesb_ok; vm_compute; reflexivity|]. split; vm_compute; reflexivity.
Qed.

(** C62 *)
Theorem C62_basis :
  forall b, get_displayable_basis b = match determinants b with [] => Ok [] | _ => Err AttributeError end.
Proof. exact C62_basis_pf. Qed.
Print Assumptions C62_basis.

Theorem C62_dominant :
  forall c l v ndet, proper c -> construct_basis c = Ok (mkBasis c l) -> length v = length l -> v <> [] -> 1 <= ndet ->
  get_displayable_dominant_determinants (mkBasis c l) v ndet = Err AttributeError.
Proof. exact C62_dominant_pf. Qed.
Print Assumptions C62_dominant.

Theorem C62_nothing :
  forall c l, get_displayable_dominant_determinants (mkBasis c l) [] 0 = Ok ([], []).
Proof. exact C62_nothing_pf. Qed.
Print Assumptions C62_nothing.

Example C62_example : proper (ex_rect 2 1 1 1 1) /\ construct_basis (ex_rect 2 1 1 1 1) = Ok (mkBasis (ex_rect 2 1 1 1 1) [[0; 1]; [1; 0]]) /\
  get_displayable_basis (mkBasis (ex_rect 2 1 1 1 1) [[0; 1]; [1; 0]]) = Err AttributeError /\
  get_displayable_dominant_determinants (mkBasis (ex_rect 2 1 1 1 1) [[0; 1]; [1; 0]]) [1%Qc; 1%Qc] 1 = Err AttributeError.
Proof.
  split; [unfold proper; vm_compute; intuition congruence|]. split; [vm_compute; reflexivity|]. split; vm_compute; reflexivity.
Qed.

(** C72 *)
Theorem C72_ring :
  forall c d s w h, w = nblocs_side c * nbh c -> h = nblocs_side c * nbv c -> 1 <= w -> 1 <= h -> w * h + 2 * (w + h) <= nsites c ->
  describes (nsites c) (nholes c) (nbeta c) d s ->
  get_displayable_outer_embedding_lattice (AsConf c) d = Ok (paragraph (ringed_lines w h s)).
Proof. exact C72_ring_pf. Qed.
Print Assumptions C72_ring.

Theorem C72_site :
  forall w h x, 1 <= w -> 1 <= h -> 0 <= x < w * h + 2 * (w + h) -> ringed_site w h (ringed_point w h x) = x.
Proof. exact C72_site_pf. Qed.
Print Assumptions C72_site.

Theorem C72_point :
  forall w h s x, 1 <= w -> 1 <= h -> 0 <= x < w * h + 2 * (w + h) ->
  let '(X, Y) := ringed_point w h x in
  nth (Z.to_nat (3 * (X + 1))) (nth (Z.to_nat (2 * (h - Y))) (ringed_lines w h s) []) 0 = arrow_of (s x).
Proof. exact C72_point_pf. Qed.
Print Assumptions C72_point.

(** two sites in a ring of six: the ring is numbered from below site 0, counter clockwise *)
Definition ex_ringed : configuration := ex_ring 2 1 1 1 3.
Definition ex_ringed_state : occupation := fun x => if x =? 0 then Hole else if (x =? 2) || (x =? 4) || (x =? 7) then Down else Up.
Example C72_example : nblocs_side ex_ringed * nbh ex_ringed = 2 /\ nblocs_side ex_ringed * nbv ex_ringed = 1 /\ 2 * 1 + 2 * (2 + 1) <= nsites ex_ringed /\
  describes (nsites ex_ringed) (nholes ex_ringed) (nbeta ex_ringed) [0; 2; 4; 7; 1; 3; 5; 6] ex_ringed_state /\
  get_displayable_outer_embedding_lattice (AsConf ex_ringed) [0; 2; 4; 7; 1; 3; 5; 6] =
    Ok ([32; 32; 32; 8593; 45; 45; 8593; 10; 10] ++ [8595; 32; 32; 48; 45; 45; 8593; 32; 32; 8595; 10; 10] ++ [32; 32; 32; 8595; 45; 45; 8593]).
Proof.
  split; [vm_compute; reflexivity|]. split; [vm_compute; reflexivity|]. split; [vm_compute; discriminate|].
  split; [apply describesb_ok; vm_compute; reflexivity | vm_compute; reflexivity].
Qed.
