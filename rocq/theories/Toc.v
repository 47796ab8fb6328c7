(** Toc.v -- model of the table of contents construction in src/parsing/mod.rs. *)
From Coq Require Import DecimalString.
From Verif Require Import Base Strings Links Attr Depth Tree.

(** [format!("{}", n)] for a usize. *)
Definition dec (n : nat) : str := lit (NilZero.string_of_uint (Nat.to_uint n)).

(** build_toc_list_element with the Incrementer, src/parsing/mod.rs:213-258: the counter is
    threaded through. *)
Fixpoint toc_item (incr : nat) (it : depth_item unit str) {struct it} : list_item * nat :=
  match it with
  | DList _ items =>
      let '(items', incr') :=
        (fix go (incr : nat) (l : list (depth_item unit str)) : list list_item * nat :=
           match l with
           | [] => ([], incr)
           | x :: l' => let '(y, i1) := toc_item incr x in
                        let '(ys, i2) := go i1 l' in (y :: ys, i2)
           end) incr items in
      (LISubList (EList LBullet [] items'), incr')
  | DItem name =>
      (LIElements [] [ELink LTTableOfContents (LUrl (lit "#toc" ++ dec incr)) None (LabelText name) None],
       S incr)
  end.
Fixpoint toc_items (incr : nat) (l : list (depth_item unit str)) : list list_item * nat :=
  match l with
  | [] => ([], incr)
  | x :: l' => let '(y, i1) := toc_item incr x in
               let '(ys, i2) := toc_items i1 l' in (y :: ys, i2)
  end.
(** [trees.into_iter().map(|(_, items)| build_toc_list_element(&mut incrementer, items)).collect()],
    src/parsing/mod.rs:104-107. *)
Fixpoint toc_trees (incr : nat) (ts : list (unit * list (depth_item unit str))) : list element :=
  match ts with
  | [] => []
  | (_, items) :: ts' => let '(its, i1) := toc_items incr items in
                         EList LBullet [] its :: toc_trees i1 ts'
  end.
(** The table of contents of a page from the recorded (depth, name) list, src/parsing/mod.rs:97-107;
    [None] = panic. *)
Definition build_toc (depths : list (nat * str)) : option (list element) :=
  match process_depths (fun _ _ => true) tt (map (fun '(d, name) => (d, tt, name)) depths) with
  | Some trees => Some (toc_trees 0 trees)
  | None => None
  end.
