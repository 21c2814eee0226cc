(** * The overlap of two triangles (OSCTriangle2D.hpp)

    [double] is idealised as [R].  OT = EnvironmentSimulator/Modules/ScenarioEngine/OSCTypeDefs. *)
From Coq Require Import Reals Bool.
From Verif Require Import AngModel.
Open Scope R_scope.

(** class Point without h, OT/OSCAABBTree.hpp:43-52. *)
Definition point := (R * R)%type.

(** [>= 0], [<= 0] of C++. *)
Definition ge0 (x : R) : bool := negb (Rltb x 0).
Definition le0 (x : R) : bool := negb (Rltb 0 x).

(** orientation, OT/OSCTriangle2D.hpp:50-53. *)
Definition orientation (a b c : point) : R := (fst a - fst c) * (snd b - snd c) - (snd a - snd c) * (fst b - fst c).

(** intersection_test_vertex, OT/OSCTriangle2D.hpp:55-87. *)
Definition intersection_test_vertex (a1 b1 c1 a2 b2 c2 : point) : bool :=
  if ge0 (orientation c2 a2 b1) then
    if le0 (orientation c2 b2 b1) then
      if Rltb 0 (orientation a1 a2 b1) then le0 (orientation a1 b2 b1)
      else ge0 (orientation a1 a2 c1) && ge0 (orientation b1 c1 a2)
    else le0 (orientation a1 b2 b1) && le0 (orientation c2 b2 c1) && ge0 (orientation b1 c1 b2)
  else if ge0 (orientation c2 a2 c1) then
    if ge0 (orientation b1 c1 c2) then ge0 (orientation a1 a2 c1)
    else ge0 (orientation b1 c1 b2) && ge0 (orientation c2 c1 b2)
  else false.

(** intersection_test_edges, OT/OSCTriangle2D.hpp:89-106. *)
Definition intersection_test_edges (a1 b1 c1 a2 c2 : point) : bool :=
  if ge0 (orientation c2 a2 b1) then
    if ge0 (orientation a1 a2 b1) then ge0 (orientation a1 b1 c2)
    else ge0 (orientation b1 c1 a2) && ge0 (orientation c1 a1 a2)
  else if ge0 (orientation c2 a2 c1) then
    ge0 (orientation a1 a2 c1) && (ge0 (orientation a1 c1 c2) || ge0 (orientation b1 c1 c2))
  else false.

(** intersection2d, OT/OSCTriangle2D.hpp:108-140. *)
Definition intersection2d (a1 b1 c1 a2 b2 c2 : point) : bool :=
  if ge0 (orientation a2 b2 a1) then
    if ge0 (orientation b2 c2 a1) then ge0 (orientation c2 a2 a1) || intersection_test_edges a1 b1 c1 a2 c2
    else if ge0 (orientation c2 a2 a1) then intersection_test_edges a1 b1 c1 c2 b2
    else intersection_test_vertex a1 b1 c1 a2 b2 c2
  else if ge0 (orientation b2 c2 a1) then
    if ge0 (orientation c2 a2 a1) then intersection_test_edges a1 b1 c1 b2 c2
    else intersection_test_vertex a1 b1 c1 b2 c2 a2
  else intersection_test_vertex a1 b1 c1 c2 a2 b2.

(** overlap2d, OT/OSCTriangle2D.hpp:142-164. *)
Definition overlap2d (a1 b1 c1 a2 b2 c2 : point) : bool :=
  if Rltb (orientation a1 b1 c1) 0 then
    if Rltb (orientation a2 b2 c2) 0 then intersection2d a1 c1 b1 a2 c2 b2 else intersection2d a1 c1 b1 a2 b2 c2
  else if Rltb (orientation a2 b2 c2) 0 then intersection2d a1 b1 c1 a2 c2 b2 else intersection2d a1 b1 c1 a2 b2 c2.

(** Triangle::collide, OT/OSCAABBTree.cpp:42-46; a triangle is its corners. *)
Definition collide (s t : point * point * point) : bool :=
  let '(a, b, c) := s in let '(a', b', c') := t in overlap2d a b c a' b' c'.
