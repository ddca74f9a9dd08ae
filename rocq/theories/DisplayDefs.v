(** Vocabulary of the statements on displays.  Nothing here refers to the model. *)
From Coq Require Import ZArith List Bool.
From Verif Require Import Spec.
Import ListNotations.
Open Scope Z_scope.

(** 0, 1, .., k - 1 *)
Definition upto (k : Z) : list Z := map Z.of_nat (seq 0 (Z.to_nat k)).

(** '0', '-' or '+' *)
Definition sign_of (p : particle) : Z := match p with Hole => 48 | Down => 45 | Up => 43 end.

(** '0', down arrow or up arrow *)
Definition arrow_of (p : particle) : Z := match p with Hole => 48 | Down => 8595 | Up => 8593 end.

(** Lines separated by line feeds. *)
Fixpoint paragraph (lines : list (list Z)) : list Z :=
  match lines with
  | [] => []
  | [l] => l
  | l :: ls => l ++ 10 :: paragraph ls
  end.

(** Character at line [r] and column [k] of the picture of a [w] by [h] rectangle: the point [(x, y)] is
    at line [2 (h - 1 - y)] and column [3 x]; dashes between the points of a row, bars between the rows. *)
Definition rectangle_char (w h : Z) (s : occupation) (r k : Z) : Z :=
  if Z.even r then if k mod 3 =? 0 then arrow_of (s (site w (k / 3, h - 1 - r / 2))) else 45
  else if k mod 3 =? 0 then 124 else 32.
Definition rectangle_line (w h : Z) (s : occupation) (r : Z) : list Z :=
  map (rectangle_char w h s r) (upto (3 * w - 2)).
Definition rectangle_lines (w h : Z) (s : occupation) : list (list Z) :=
  map (rectangle_line w h s) (upto (2 * h - 1)).

(** Site at a point of the rectangle or of its ring: the inverse of [ringed_point]. *)
Definition ringed_site (w h : Z) (p : Z * Z) : Z :=
  let '(x, y) := p in
  if y =? -1 then w * h + x
  else if y =? h then w * h + w + h + (w - 1 - x)
  else if x =? w then w * h + w + y
  else if x =? -1 then w * h + 2 * w + h + (h - 1 - y)
  else site w p.

(** Picture of the rectangle in its ring: the point [(x, y)] is at line [2 (h - y)] and column
    [3 (x + 1)]; lines 1 and [2 h + 1] are empty. *)
Definition ringed_char (w h : Z) (s : occupation) (r k : Z) : Z :=
  let x := k / 3 - 1 in
  let y := h - r / 2 in
  if Z.even r then
    if k mod 3 =? 0 then if ((y =? -1) || (y =? h)) && (x =? -1) then 32 else arrow_of (s (ringed_site w h (x, y)))
    else if (0 <=? x) && (x + 1 <? w) then 45 else 32
  else if k mod 3 =? 0 then 124 else 32.
Definition ringed_length (w h r : Z) : Z :=
  if (r =? 0) || (r =? 2 * h + 2) then 3 * w + 1
  else if (r =? 1) || (r =? 2 * h + 1) then 0
  else 3 * w + 4.
Definition ringed_lines (w h : Z) (s : occupation) : list (list Z) :=
  map (fun r => map (ringed_char w h s r) (upto (ringed_length w h r))) (upto (2 * h + 3)).
