(** SpecDepth.v -- what nested depth lists should say, for C21. *)
From Verif Require Import Base Depth.

Section Spec.
Context {L T : Type}.
(** The items of a nested list in reading order, each with its nesting depth and the type of the
    list directly around it. *)
Fixpoint reading (d : nat) (l : L) (it : depth_item L T) : list (nat * L * T) :=
  match it with
  | DItem t => [(d, l, t)]
  | DList l' items => flat_map (reading (S d) l') items
  end.
Definition reading_trees (ts : list (L * list (depth_item L T))) : list (nat * L * T) :=
  flat_map (fun '(l, items) => flat_map (reading 0 l) items) ts.
(** No list in the tree is empty. *)
Inductive no_empty : depth_item L T -> Prop :=
| ne_item : forall t, no_empty (DItem t)
| ne_list : forall l items, items <> [] -> Forall no_empty items -> no_empty (DList l items).
(** Two lists of the same type never stand side by side (they would have been one list). *)
Fixpoint no_adjacent (items : list (depth_item L T)) : Prop :=
  match items with
  | DList l1 _ :: ((DList l2 _ :: _) as rest) => l1 <> l2 /\ no_adjacent rest
  | _ :: rest => no_adjacent rest
  | [] => True
  end.
Inductive merged : depth_item L T -> Prop :=
| mg_item : forall t, merged (DItem t)
| mg_list : forall l items, no_adjacent items -> Forall merged items -> merged (DList l items).
Fixpoint types_alternate (ts : list (L * list (depth_item L T))) : Prop :=
  match ts with
  | (l1, _) :: (((l2, _) :: _) as rest) => l1 <> l2 /\ types_alternate rest
  | _ => True
  end.
(** Lists that can be written down: each starts with a line of its own, and two lists of the same
    type do not stand side by side. *)
Definition starts_item (items : list (depth_item L T)) : Prop := match items with DItem _ :: _ => True | _ => False end.
Inductive writable : depth_item L T -> Prop :=
| wr_item t : writable (DItem t)
| wr_list l items : starts_item items -> no_adjacent items -> Forall writable items -> writable (DList l items).
End Spec.
