(** SpecTree.v — searching a tree of bounding boxes, and the same search without the tree. *)
From Coq Require Import List Bool.
Import ListNotations.
From Verif Require Import Base Num Vec Mat Bound Shape Intersect SpecBound.

Inductive tree (A : Type) := Leaf (a : A) | Node (l : list (tree A)).
Arguments Leaf {A} a.
Arguments Node {A} l.
Fixpoint leaves {A} (t : tree A) : list A := match t with Leaf a => [a] | Node l => concat (map leaves l) end.
(** evaluate from left to right, stopping at the first panic *)
Fixpoint in_turn {A} (l : list (res A)) : res (list A) := match l with [] => Ok [] | x :: l' => bind x (fun a => bind (in_turn l') (fun r => Ok (a :: r))) end.
Definition appended {A} (l : list (res (list A))) : res (list A) := bind (in_turn l) (fun r => Ok (concat r)).

Section Search.
  Context {N : Num}.
  (** the box of a node is the union of the boxes of its children *)
  Fixpoint tree_bound (t : tree (shape N)) : res (ibound N) :=
    match t with
    | Leaf s => Ok (shape_get_bound s)
    | Node l => bind (in_turn (map tree_bound l)) (fun bs => bind (aabb_get_union aabb_default bs) (fun u => Ok (BBox u)))
    end.
  (** the shapes met by q, with the place *)
  Definition meet (q s : shape N) : res (list (shape N * option (mat3x1 N))) := bind (shape_get_intersect s q) (fun h => Ok (if fst h then [(s, snd h)] else [])).
  (** leave out everything below a node whose box is apart from the box of q *)
  Fixpoint search (q : shape N) (t : tree (shape N)) : res (list (shape N * option (mat3x1 N))) :=
    bind (tree_bound t) (fun b => bind (ibound_intersect b (shape_get_bound q)) (fun o =>
      if o then match t with Leaf s => meet q s | Node l => appended (map (search q) l) end else Ok [])).
  (** ask every shape *)
  Definition scan (q : shape N) (l : list (shape N)) : res (list (shape N * option (mat3x1 N))) := appended (map (meet q) l).
  (** all meeting pairs of two trees, leaving out everything below two boxes that are apart *)
  Definition tag {A B} (a : A) (r : res (list B)) : res (list (A * B)) := bind r (fun l => Ok (map (pair a) l)).
  Fixpoint clash (t1 t2 : tree (shape N)) : res (list (shape N * (shape N * option (mat3x1 N)))) :=
    bind (tree_bound t1) (fun b1 => bind (tree_bound t2) (fun b2 => bind (ibound_intersect b1 b2) (fun o =>
      if o then match t1 with Leaf s => tag s (search s t2) | Node l => appended (map (fun c => clash c t2) l) end else Ok []))).
  (** ask every pair *)
  Definition cross (l1 l2 : list (shape N)) : res (list (shape N * (shape N * option (mat3x1 N)))) := appended (map (fun s => tag s (scan s l2)) l1).
  (** the box of s has no NaN *)
  Definition clean (s : shape N) : Prop := match shape_get_bound s with BBox b => nonan b | BSphere => True end.
End Search.
