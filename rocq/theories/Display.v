(** Model of /repo/baseConstruction.py:408-651, 772-785 (displays).  A Python string is the list of its
    code points: '+' 43, '-' 45, '0' 48, '|' 124, ' ' 32, '\n' 10, '↑' 8593, '↓' 8595. *)
From Coq Require Import ZArith List Bool QArith Qcanon.
From Verif Require Import PyBase Lattice Base Prob.
Import ListNotations.
Open Scope Z_scope.

(** The object passed where a configuration is expected: some callers pass a basis
    (baseConstruction.py:445, 784). *)
Inductive obj : Type := AsConf (c : configuration) | AsBasis (b : basis).

(** Reading nbeta, nholes, nbh, nbv or nblocs_side of the object: class Basis
    (baseConstruction.py:69-82) has only the attributes configuration and determinants. *)
Definition as_conf (o : obj) : res configuration :=
  match o with AsConf c => Ok c | AsBasis _ => Err AttributeError end.

(** baseConstruction.py:410-430; each character is a string of its own.  The two while loops run over
    the indexes below nholes, then below nholes + nbeta (not at all when the bound is not above). *)
Definition get_displayable_determinant (o : obj) (d : det) : res (list Z) :=
  c <- as_conf o ;;
  let mark ch := fun p ind => x <- py_get d ind ;; py_set p x ch in
  p <- foldM (mark 48) (map (fun _ => 43) d) (zrange 0 (nholes c)) ;;
  foldM (mark 45) p (zrange (Z.max 0 (nholes c)) (nholes c + nbeta c)).

(** baseConstruction.py:432-446 *)
Definition get_displayable_basis (b : basis) : res (list (list Z)) :=
  mapM (fun d => get_displayable_determinant (AsBasis b) d) (determinants b).

(** baseConstruction.py:471-476 and the other tests of get_spin_site against 1/2 and -1/2 *)
Definition spin_char (c : configuration) (d : det) (site : Z) : res Z :=
  s <- get_spin_site c d site ;;
  Ok (if s =? 1 then 8593 else if s =? -1 then 8595 else 48).

(** symbols of a list of sites, each followed by "--" (baseConstruction.py:469-476, 486-493, 518-525,
    545-552, 581-587, 602-609) *)
Definition linked (c : configuration) (d : det) (sites : list Z) : res (list Z) :=
  concatM (fun site => ch <- spin_char c d site ;; Ok [ch; 45; 45]) sites.

(** '|  ' repeated (baseConstruction.py:483-484, 569-571) *)
Definition bars (k : Z) : list Z := concat (map (fun _ => [124; 32; 32]) (zrange 0 k)).

(** baseConstruction.py:448-497 *)
Definition get_displayable_rectangular_lattice (o : obj) (d : det) : res (list Z) :=
  c <- as_conf o ;;
  let s := nblocs_side c in
  upper <- concatM (fun ind_v =>
             row <- linked c d (map (fun ind_h => ind_v * s * nbh c + ind_h) (zrange 0 (s * nbh c - 1))) ;;
             ch <- spin_char c d (ind_v * s * nbh c + s * nbh c - 1) ;;
             Ok (row ++ [ch; 10] ++ bars (s * nbh c - 1) ++ [124; 10]))
           (rev (zrange 1 (s * nbv c))) ;;
  row <- linked c d (zrange 0 (s * nbh c - 1)) ;;
  ch <- spin_char c d (s * nbh c - 1) ;;
  Ok (upper ++ row ++ [ch]).

(** baseConstruction.py:499-615 *)
Definition get_displayable_outer_embedding_lattice (o : obj) (d : det) : res (list Z) :=
  c <- as_conf o ;;
  let s := nblocs_side c in
  let h := nbh c in
  let v := nbv c in
  let n := h * v * s ^ 2 in
  top <- linked c d (map (fun ind => n + ind) (rev (zrange ((h + v) * s + 1) ((2 * h + v) * s)))) ;;
  ch_top <- spin_char c d ((h + v) * s + n) ;;
  middle <- concatM (fun ind_v =>
              west <- spin_char c d (2 * (h + v) * s - 1 - ind_v + n) ;;
              row <- linked c d (map (fun ind_h => ind_v * s * h + ind_h) (zrange 0 (s * h - 1))) ;;
              ch <- spin_char c d (ind_v * s * h + s * h - 1) ;;
              east <- spin_char c d (ind_v + h * s + n) ;;
              Ok ([west; 32; 32] ++ row ++ [ch; 32; 32] ++ [east; 10] ++ [124; 32; 32] ++ bars (s * h) ++ [124; 10]))
            (rev (zrange 1 (s * v))) ;;
  west <- spin_char c d (2 * (h + v) * s - 1 + n) ;;
  row <- linked c d (zrange 0 (s * h - 1)) ;;
  ch <- spin_char c d (s * h - 1) ;;
  east <- spin_char c d (h * s + n) ;;
  bottom <- linked c d (map (fun ind => n + ind) (zrange 0 (h * s - 1))) ;;
  ch_bottom <- spin_char c d (h * s - 1 + n) ;;
  Ok ([32; 32; 32] ++ top ++ [ch_top; 10; 10] ++ middle ++ [west; 32; 32] ++ row ++ [ch; 32; 32]
      ++ [east; 10; 10; 32; 32; 32] ++ bottom ++ [ch_bottom]).

(** the lines of a text (baseConstruction.py:633-640, 641-648) *)
Definition split_lines (text : list Z) : list (list Z) :=
  let '(lines, line) := fold_left (fun st ch => let '(lines, line) := st in
                                     if ch =? 10 then (lines ++ [line], []) else (lines, line ++ [ch]))
                                  text ([], []) in
  lines ++ [line].

(** baseConstruction.py:617-651 *)
Definition get_displayable_neighbor (oA oB : obj) (dA dB : det) : res (list Z) :=
  textA <- get_displayable_rectangular_lattice oA dA ;;
  textB <- get_displayable_rectangular_lattice oB dB ;;
  Ok (concat (map (fun p => fst p ++ [32] ++ snd p ++ [10]) (combine (split_lines textA) (split_lines textB)))).

(** baseConstruction.py:772-785 *)
Definition get_displayable_dominant_determinants (b : basis) (vect : list Qc) (ndet : Z) : res (list Qc * list (list Z)) :=
  l <- get_dominant_determinants b vect ndet ;;
  shown <- mapM (fun d => get_displayable_rectangular_lattice (AsBasis b) d) (map snd l) ;;
  Ok (map fst l, shown).
