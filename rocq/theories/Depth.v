(** Depth.v -- model of src/parsing/depth.rs: from items with depths to nested lists. *)
From Verif Require Import Base Strings.

(** DepthItem / DepthList, src/parsing/depth.rs:24-30. *)
Inductive depth_item (L T : Type) : Type :=
| DItem (t : T)
| DList (l : L) (items : list (depth_item L T)).
Arguments DItem {L T}. Arguments DList {L T}.

Section Depth.
Context {L T : Type}.
Variable leqb : L -> L -> bool.        (* PartialEq for L *)

Notation level := (L * list (depth_item L T))%type.
(** DepthStack, src/parsing/depth.rs:32-36. *)
Record dstack : Type := DS { ds_finished : list level; ds_stack : nev level }.

(** new, src/parsing/depth.rs:42-48. *)
Definition ds_new (top : L) : dstack := DS [] (nev_new (top, [])).
(** increase_depth, src/parsing/depth.rs:50-52. *)
Definition increase_depth (l : L) (d : dstack) : dstack :=
  DS (ds_finished d) (nev_push (ds_stack d) (l, [])).
(** push, src/parsing/depth.rs:73-75. *)
Definition ds_push (it : depth_item L T) (d : dstack) : dstack :=
  DS (ds_finished d) (nev_update_last (fun lv => (fst lv, snd lv ++ [it])) (ds_stack d)).
(** decrease_depth, src/parsing/depth.rs:54-57; [None] = the expect panics. *)
Definition decrease_depth (d : dstack) : option dstack :=
  match nev_pop (ds_stack d) with
  | (Some (l, items), st) => Some (ds_push (DList l items) (DS (ds_finished d) st))
  | (None, _) => None
  end.
(** [for _ in 0..n { decrease_depth }]. *)
Fixpoint decrease_n (n : nat) (d : dstack) : option dstack :=
  match n with
  | 0 => Some d
  | S n' => match decrease_depth d with Some d' => decrease_n n' d' | None => None end
  end.
(** [for _ in 0..n { increase_depth(ltype) }]. *)
Fixpoint increase_n (n : nat) (l : L) (d : dstack) : dstack :=
  match n with 0 => d | S n' => increase_n n' l (increase_depth l d) end.
(** last_type, src/parsing/depth.rs:82-85. *)
Definition last_type (d : dstack) : L := fst (nev_last (ds_stack d)).
(** finish_depth_list, src/parsing/depth.rs:87-116 (the debug_assert is not modelled). *)
Definition finish_depth_list (new_l : option L) (d : dstack) : option dstack :=
  match decrease_n (nev_len (ds_stack d) - 1) d with
  | None => None
  | Some d =>
      let '(l, items) := nev_first (ds_stack d) in
      let new_l := match new_l with Some x => x | None => l end in
      let st := NEV (new_l, []) (nev_others (ds_stack d)) in
      Some (DS (match items with [] => ds_finished d | _ => ds_finished d ++ [(l, items)] end) st)
  end.
(** new_list, src/parsing/depth.rs:59-71. *)
Definition new_list (l : L) (d : dstack) : option dstack :=
  if nev_is_single (ds_stack d) then finish_depth_list (Some l) d
  else match decrease_depth d with Some d' => Some (increase_depth l d') | None => None end.
(** into_trees, src/parsing/depth.rs:118-121. *)
Definition into_trees (d : dstack) : option (list level) :=
  match finish_depth_list None d with Some d => Some (ds_finished d) | None => None end.
(** The loop of process_depths, src/parsing/depth.rs:134-166. *)
Fixpoint pd_loop (items : list (nat * L * T)) (previous : nat) (d : dstack) : option dstack :=
  match items with
  | [] => Some d
  | (depth, l, t) :: rest =>
      let d := increase_n (depth - previous) l d in
      match decrease_n (previous - depth) d with
      | None => None
      | Some d =>
          match (if leqb (last_type d) l then Some d else new_list l d) with
          | None => None
          | Some d => pd_loop rest depth (ds_push (DItem t) d)
          end
      end
  end.
(** process_depths, src/parsing/depth.rs:124-169; [None] = panic. *)
Definition process_depths (top : L) (items : list (nat * L * T)) : option (list level) :=
  match pd_loop items 0 (ds_new top) with Some d => into_trees d | None => None end.
End Depth.
