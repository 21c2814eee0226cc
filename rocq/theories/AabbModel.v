(** * The tree of bounding boxes (OSCAABBTree.cpp, OSCAABBTree.hpp)

    [double] is idealised as [Q].  Vectors are lists, iterators indices into them; the nodes made by make_shared are cells of a heap, node 0 is the tree
    itself.  A result [None] is an access outside of a vector or of the heap, or a loop that does not end.  Boxes are compared by value; the pointer to the
    triangle is the triangle.
    OT = EnvironmentSimulator/Modules/ScenarioEngine/OSCTypeDefs. *)
From Verif Require Import QAux.
Local Open Scope nat_scope.
Local Open Scope Q_scope.

(** A result that may be missing. *)
Notation "'let*' x := e 'in' f" := (match e with Some x => f | None => None end) (at level 200, x pattern, e at level 100, f at level 200).

(** std::min, std::max as used at OT/OSCAABBTree.cpp:61-64, 116-119. *)
Definition min (a b : Q) : Q := if Qltb b a then b else a.
Definition max (a b : Q) : Q := if Qltb a b then b else a.

(** class Point without h, OT/OSCAABBTree.hpp:43-52. *)
Record point := Point { p_x : Q; p_y : Q }.

(** class Triangle, OT/OSCAABBTree.hpp:54-80; the geometry is an identity ([None]: null). *)
Record triangle := Triangle { t_sI : Q; t_sF : Q; t_a : point; t_b : point; t_c : point; t_geometry : option nat }.

(** class BBox, OT/OSCAABBTree.hpp:82-115. *)
Record box := Box { blhc : point; urhc : point; b_triangle : option triangle }.

(** BBox::BBox(ptTriangle), OT/OSCAABBTree.cpp:56-65. *)
Definition BBox (t : triangle) : box :=
  let a := t_a t in let b := t_b t in let c := t_c t in
  Box (Point (min (p_x a) (min (p_x b) (p_x c))) (min (p_y a) (min (p_y b) (p_y c))))
      (Point (max (p_x a) (max (p_x b) (p_x c))) (max (p_y a) (max (p_y b) (p_y c)))) (Some t).

(** BBox::collide, OT/OSCAABBTree.cpp:83-89. *)
Definition collide (a b : box) : bool :=
  negb (Qltb (p_x (urhc a)) (p_x (blhc b)) || Qltb (p_x (urhc b)) (p_x (blhc a)) || Qltb (p_y (urhc a)) (p_y (blhc b)) || Qltb (p_y (urhc b)) (p_y (blhc a))).

(** BBox::midPointX, midPointY, OT/OSCAABBTree.cpp:91-99. *)
Definition midPointX (b : box) : Q := (p_x (urhc b) + p_x (blhc b)) / 2.
Definition midPointY (b : box) : Q := (p_y (urhc b) + p_y (blhc b)) / 2.

(** One turn of the loop of BBox::merge, OT/OSCAABBTree.cpp:114-120, and BBox::merge with the constructor from two iterators, 72-76, 101-121. *)
Definition merge1 (m b : box) : box :=
  Box (Point (min (p_x (blhc m)) (p_x (blhc b))) (min (p_y (blhc m)) (p_y (blhc b))))
      (Point (max (p_x (urhc m)) (p_x (urhc b))) (max (p_y (urhc m)) (p_y (urhc b)))) None.
Definition merge (v : list box) (first last : nat) : option box :=
  match firstn (last - first) (skipn first v) with
  | [] => None
  | b :: r => Some (fold_left merge1 r (Box (blhc b) (urhc b) None))
  end.

(** std::iter_swap, OT/OSCAABBTree.cpp:268. *)
Fixpoint put (v : list box) (i : nat) (b : box) : list box :=
  match v, i with
  | [], _ => []
  | _ :: r, O => b :: r
  | x :: r, S i => x :: put r i b
  end.
Definition iter_swap (v : list box) (i j : nat) : option (list box) :=
  let* x := nth_error v i in
  let* y := nth_error v j in
  Some (put (put v i y) j x).

(** The inner loops of Tree::divide, OT/OSCAABBTree.cpp:258-265; [n] is last - first. *)
Fixpoint scan_up (n : nat) (compare : box -> bool) (v : list box) (first : nat) : option nat :=
  match n with
  | O => Some first
  | S n => let* b := nth_error v first in if compare b then scan_up n compare v (S first) else Some first
  end.
Fixpoint scan_down (n : nat) (compare : box -> bool) (v : list box) (last : nat) : option nat :=
  match n with
  | O => Some last
  | S n => let* b := nth_error v last in if compare b then Some last else scan_down n compare v (last - 1)
  end.

(** The outer loop, OT/OSCAABBTree.cpp:256-270. *)
Fixpoint divide_loop (fuel : nat) (compare : box -> bool) (v : list box) (first last : nat) : option (list box * nat) :=
  match fuel with
  | O => None
  | S fuel =>
      let* first := scan_up (last - first) compare v first in
      let last := (last - 1)%nat in
      let* last := scan_down (last - first) compare v last in
      if (first <? last)%nat then let* v := iter_swap v first last in divide_loop fuel compare v (S first) last
      else Some (v, first)
  end.

(** What the boxes are compared by, OT/OSCAABBTree.cpp:239-252. *)
Definition compare_by (m : box) : box -> bool :=
  let lo := blhc m in let hi := urhc m in
  if Qltb (p_y hi - p_y lo) (p_x hi - p_x lo) then let mid := (p_x hi + p_x lo) / 2 in fun b => Qltb (midPointX b) mid
  else let mid := (p_y hi + p_y lo) / 2 in fun b => Qltb (midPointY b) mid.

(** Tree::divide, OT/OSCAABBTree.cpp:232-271. *)
Definition divide (v : list box) (first last : nat) (m : box) : option (list box * nat) :=
  if (last - first =? 0)%nat then Some (v, first)
  else if (last - first =? 1)%nat then Some (v, last)
  else divide_loop (S (last - first)) (compare_by m) v first last.

(** class Tree, OT/OSCAABBTree.hpp:130-178: bbox and childeren; the heap of trees. *)
Record node := Node { n_box : option box; n_kids : list nat }.
Definition heap := list node.
Fixpoint set_node (h : heap) (i : nat) (x : node) : heap :=
  match h, i with
  | [], _ => []
  | _ :: r, O => x :: r
  | y :: r, S i => y :: set_node r i x
  end.

(** StackRecord, OT/OSCAABBTree.hpp:173-177: first, last, tree. *)
Definition record := (nat * nat * nat)%type.

(** What Tree::__build leaves behind: the vector, the heap, leafCount_ and nodeCount_. *)
Definition built := (list box * heap * nat * nat)%type.

(** The loop of Tree::__build, OT/OSCAABBTree.cpp:182-224; [cur] is currentTree. *)
Fixpoint build_loop (fuel : nat) (v : list box) (first last cur : nat) (stack : list record) (h : heap) (leafs nodes : nat) : option built :=
  match fuel with
  | O => None
  | S fuel =>
      if (first <? last)%nat then
        let* c := nth_error h cur in
        if (last - first =? 1)%nat then
          let* b := nth_error v first in
          let h := set_node h cur (Node (Some b) (n_kids c)) in
          match stack with
          | [] => Some (v, h, S leafs, nodes)
          | (f, l, t) :: stack => build_loop fuel v f l t stack h (S leafs) nodes
          end
        else
          let* m := merge v first last in
          let* (v, cut) := divide v first last m in
          let pos := List.length h in
          let neg := S pos in
          let cut := if (0 <? cut - first)%nat && (0 <? last - cut)%nat then cut else (first + (last - first) / 2)%nat in
          let h := set_node (h ++ [Node None []; Node None []]) cur (Node (Some m) (n_kids c ++ [pos; neg])) in
          build_loop fuel v first cut pos ((cut, last, neg) :: stack) h leafs (nodes + 2)
      else Some (v, h, leafs, nodes)
  end.

(** Tree::build, OT/OSCAABBTree.cpp:142-150, of a tree with the box [old] (null for a new one): the heap starts with the tree itself, childeren cleared;
    [counts] are leafCount_ and nodeCount_ before. *)
Definition build (old : option box) (counts : nat * nat) (v : list box) : option built :=
  match v with
  | [] => Some (v, [Node old []], fst counts, snd counts)
  | _ => build_loop (2 * List.length v) v 0 (List.length v) 0 [] [Node old []] 0 1
  end.

(** Tree::empty, OT/OSCAABBTree.cpp:152-155, of the tree at [i]. *)
Definition empty (h : heap) (i : nat) : option bool :=
  let* n := nth_error h i in
  Some (match n_box n, n_kids n with None, [] => true | _, _ => false end).

(** The loops over children of Tree::intersect, OT/OSCAABBTree.cpp:296-316: the candidates of each in turn. *)
Fixpoint each {A : Type} (f : A -> option (list (box * box))) (l : list A) : option (list (box * box)) :=
  match l with
  | [] => Some []
  | x :: l => let* c := f x in let* d := each f l in Some (c ++ d)
  end.

(** Tree::intersect, OT/OSCAABBTree.cpp:279-319, of the tree at [i] in [h] with that at [j] in [g]: the candidates in the order they are pushed. *)
Fixpoint intersect (fuel : nat) (h : heap) (i : nat) (g : heap) (j : nat) : option (list (box * box)) :=
  match fuel with
  | O => None
  | S fuel =>
      let* x := nth_error h i in
      let* y := nth_error g j in
      match n_box x, n_box y with
      | Some a, Some b =>
          if collide b a then
            match n_kids x, n_kids y with
            | [], [] => Some [(a, b)]
            | kids, [] => each (fun k => intersect fuel h k g j) kids
            | [], kids => each (fun k => intersect fuel h i g k) kids
            | kids1, kids2 => each (fun k1 => each (fun k2 => intersect fuel h k1 g k2) kids2) kids1
            end
          else Some []
      | _, _ => Some []
      end
  end.

(** aabbTree::processCandidates, OT/OSCAABBTree.cpp:340-361; [hit] is Triangle::collide, 42-46. *)
Definition processCandidate (hit : triangle -> triangle -> bool) (c : box * box) : list triangle :=
  match b_triangle (fst c), b_triangle (snd c) with
  | Some t1, Some t2 => if hit t1 t2 then (match t_geometry t2 with Some _ => [t2] | None => [t1] end) else []
  | _, _ => []
  end.
Definition processCandidates (hit : triangle -> triangle -> bool) (l : list (box * box)) : list triangle := flat_map (processCandidate hit) l.
