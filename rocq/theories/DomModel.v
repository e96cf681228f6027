(** Model of the DOM links of oxvg_ast (crates/oxvg_ast/src/node.rs and element.rs).
    A node reference is a [nat] (its allocation id: [Node: PartialEq] compares ids, node.rs
    729-733); a [Cell<Option<Ref>>] is an [option nat] field of the node record; every method
    that writes through cells becomes a function returning the new heap, writes in source
    order. *)
From Coq Require Import List Arith Bool.
Import ListNotations.

(** node.rs 77-112 [NodeData].  Simplification: names, attribute keys, attribute values and
    character data are opaque tokens ([nat]); source ranges and selector flags are dropped. *)
Inductive data : Type :=
| DDocument
| DRoot
| DElement (name : nat) (attrs : list (nat * nat))
| DPI (target value : nat)
| DComment (value : nat)
| DText (value : nat)
| DStyle (value : nat).

(** node.rs 166-184 [Node] (without [range] and [id], the id being the key in the heap). *)
Record node : Type := mkNode {
  parent : option nat;
  next : option nat;
  prev : option nat;
  first : option nat;
  last : option nat;
  ndata : data
}.

(** The arena as seen through references (arena.rs 24-29): id -> node. *)
Definition heap : Type := nat -> node.

(** [Cell::set] on the fields of a node reached through a reference (std; used all over
    node.rs, such as at node.rs:303 and so on). *)
Definition set_parent (h : heap) (n : nat) (v : option nat) : heap :=
  fun m => let x := h m in if m =? n then
    {| parent := v; next := next x; prev := prev x; first := first x;
       last := last x; ndata := ndata x |} else x.
(** [next_sibling.set] (node.rs 170). *)
Definition set_next (h : heap) (n : nat) (v : option nat) : heap :=
  fun m => let x := h m in if m =? n then
    {| parent := parent x; next := v; prev := prev x; first := first x;
       last := last x; ndata := ndata x |} else x.
(** [previous_sibling.set] (node.rs 172). *)
Definition set_prev (h : heap) (n : nat) (v : option nat) : heap :=
  fun m => let x := h m in if m =? n then
    {| parent := parent x; next := next x; prev := v; first := first x;
       last := last x; ndata := ndata x |} else x.
(** [first_child.set] (node.rs 174). *)
Definition set_first (h : heap) (n : nat) (v : option nat) : heap :=
  fun m => let x := h m in if m =? n then
    {| parent := parent x; next := next x; prev := prev x; first := v;
       last := last x; ndata := ndata x |} else x.
(** [last_child.set] (node.rs 176). *)
Definition set_last (h : heap) (n : nat) (v : option nat) : heap :=
  fun m => let x := h m in if m =? n then
    {| parent := parent x; next := next x; prev := prev x; first := first x;
       last := v; ndata := ndata x |} else x.

(** node.rs 217-229 [Node::new] and arena.rs 75-84 [Allocator::alloc]: a clean node at a fresh
    id (the id is an argument here; freshness is the arena's property, see ArenaModel). *)
Definition alloc (h : heap) (id : nat) (d : data) : heap :=
  fun m => if m =? id then
    {| parent := None; next := None; prev := None; first := None; last := None; ndata := d |}
  else h m.

(** node.rs 752-761 [NodeData::node_type] restricted to the question the DOM methods ask. *)
Definition is_element_or_document (d : data) : bool :=
  match d with
  | DDocument | DRoot | DElement _ _ => true
  | _ => false
  end.

(** element.rs 79-84 [Element::new]. *)
Definition element_new (h : heap) (n : nat) : option nat :=
  if is_element_or_document (ndata (h n)) then Some n else None.

(** node.rs 399-401 [Node::parent_node]. *)
Definition parent_node (h : heap) (n : nat) : option nat :=
  match parent (h n) with
  | Some p => element_new h p
  | None => None
  end.

(** node.rs 593-621 [Node::remove]. *)
Definition remove (h : heap) (self : nat) : heap :=
  let p := parent (h self) in
  let h := set_parent h self None in
  let pr := prev (h self) in
  let h := set_prev h self None in
  let nx := next (h self) in
  let h := set_next h self None in
  match pr with
  | Some pr =>
      let h :=
        match nx with
        | Some nx => set_prev h nx (Some pr)
        | None => match p with
                  | Some p => set_last h p (Some pr)
                  | None => h
                  end
        end in
      set_next h pr nx
  | None =>
      match nx with
      | Some nx =>
          let h := set_prev h nx None in
          match p with
          | Some p => set_first h p (Some nx)
          | None => h
          end
      | None =>
          match p with
          | Some p => set_last (set_first h p None) p None
          | None => h
          end
      end
  end.

(** node.rs 297-315 [Node::insert_before]. *)
Definition insert_before (h : heap) (self new ref : nat) : heap :=
  let h := remove h new in
  let h := set_parent h new (Some self) in
  let pc := prev (h ref) in
  let h := set_prev h ref (Some new) in
  match pc with
  | None =>
      let h := set_first h self (Some new) in
      set_next h new (Some ref)
  | Some pc =>
      let h := set_next h pc (Some new) in
      let h := set_prev h new (Some pc) in
      set_next h new (Some ref)
  end.

(** node.rs 320-338 [Node::insert_after]. *)
Definition insert_after (h : heap) (self new ref : nat) : heap :=
  let h := remove h new in
  let h := set_parent h new (Some self) in
  let nc := next (h ref) in
  let h := set_next h ref (Some new) in
  match nc with
  | None =>
      let h := set_last h self (Some new) in
      set_prev h new (Some ref)
  | Some nc =>
      let h := set_prev h nc (Some new) in
      let h := set_next h new (Some nc) in
      set_prev h new (Some ref)
  end.

(** node.rs 428-440 [Node::append_child]. *)
Definition append_child (h : heap) (self c : nat) : heap :=
  let h := set_parent h c (Some self) in
  let l := last (h self) in
  let h := set_last h self (Some c) in
  match l with
  | Some l =>
      let h := set_next h l (Some c) in
      set_prev h c (Some l)
  | None => set_first h self (Some c)
  end.

(** node.rs 276-279 [Node::empty]. *)
Definition empty (h : heap) (self : nat) : heap :=
  set_last (set_first h self None) self None.

(** node.rs 697-724 [Node::replace_child] (the returned old child is dropped). *)
Definition replace_child (h : heap) (self new old : nat) : heap :=
  let pr := prev (h old) in
  let h := set_prev h old None in
  let nx := next (h old) in
  let h := set_next h old None in
  let h := set_parent h old None in
  let h := set_prev h new pr in
  let h := set_next h new nx in
  let h := set_parent h new (Some self) in
  let h := match pr with
           | Some pr => set_next h pr (Some new)
           | None => set_first h self (Some new)
           end in
  match nx with
  | Some nx => set_prev h nx (Some new)
  | None => set_last h self (Some new)
  end.

(** element.rs 327-338 [Element::prepend]. *)
Definition prepend (h : heap) (self n : nat) : heap :=
  let h :=
    match first (h self) with
    | Some f =>
        let h := set_prev h f (Some n) in
        let h := set_next h n (Some f) in
        set_first h self (Some n)
    | None =>
        let h := set_first h self (Some n) in
        set_last h self (Some n)
    end in
  set_parent h n (Some self).

(** element.rs 472-484 [Element::append]. *)
Definition append (h : heap) (self n : nat) : heap :=
  let h := remove h n in
  let h :=
    match last (h self) with
    | Some l =>
        let h := set_next h l (Some n) in
        let h := set_prev h n (Some l) in
        set_last h self (Some n)
    | None =>
        let h := set_first h self (Some n) in
        set_last h self (Some n)
    end in
  set_parent h n (Some self).

(** element.rs 462-467 [Element::after]. *)
Definition after (h : heap) (self n : nat) : heap :=
  match parent_node h self with
  | Some p => insert_after h p n self
  | None => h
  end.

(** element.rs 489-495 [Element::before]; [set_parent_node] is node.rs 415-422. *)
Definition before (h : heap) (self n : nat) : heap :=
  match parent_node h self with
  | Some p =>
      let h := remove h n in
      let h := set_parent h n (Some p) in
      insert_before h p n self
  | None => h
  end.

(** element.rs 376-379 [Element::replace_with]. *)
Definition replace_with (h : heap) (self other : nat) : heap :=
  remove (after h self other) self.

(** element.rs 614-619: the loop of [Element::flatten] that re-parents the children, following
    [next_sibling] from the first child.  Fuel bounds the walk; exhaustion is [None]. *)
Fixpoint reparent_from (fuel : nat) (h : heap) (cur : option nat) (p : option nat)
  : option heap :=
  match cur with
  | None => Some h
  | Some c =>
      match fuel with
      | O => None
      | S fuel =>
          let h := set_parent h c p in
          reparent_from fuel h (next (h c)) p
      end
  end.

(** element.rs 613-651 [Element::flatten]. *)
Definition flatten (fuel : nat) (h : heap) (self : nat) : option heap :=
  let p := parent (h self) in
  let h := set_parent h self None in
  match reparent_from fuel h (first (h self)) p with
  | None => None
  | Some h =>
      let pr := prev (h self) in
      let h := set_prev h self None in
      let nx := next (h self) in
      let h := set_next h self None in
      let fc := first (h self) in
      let h := set_first h self None in
      let lc := last (h self) in
      let h := set_last h self None in
      let h :=
        match fc with
        | Some fc =>
            match pr with
            | Some pr => set_prev (set_next h pr (Some fc)) fc (Some pr)
            | None => match p with
                      | Some p => set_first h p (Some fc)
                      | None => h
                      end
            end
        | None =>
            match pr with
            | Some pr =>
                let h := set_next h pr nx in
                match nx with
                | Some nx => set_prev h nx (Some pr)
                | None => h
                end
            | None => match p with
                      | Some p => set_first h p nx
                      | None => h
                      end
            end
        end in
      Some
        (match lc with
         | Some lc =>
             match nx with
             | Some nx => set_prev (set_next h lc (Some nx)) nx (Some lc)
             | None => match p with
                       | Some p => set_last h p (Some lc)
                       | None => h
                       end
             end
         | None =>
             match nx with
             | Some nx => set_prev h nx pr
             | None => match p with
                       | Some p => set_last h p pr
                       | None => h
                       end
             end
         end)
  end.

(** element.rs 397-428 [Element::set_local_name]: allocate a clone of the element data under
    the new name and put it in place of the old node.  The alias search (406-415) only affects
    the spelling of the name and is folded into [name'].  [None] is the panic at 402-404. *)
Definition set_local_name (h : heap) (self fresh : nat) (name' : nat) : option heap :=
  match ndata (h self) with
  | DElement _ attrs =>
      let h := alloc h fresh (DElement name' attrs) in
      Some (replace_with h self fresh)
  | _ => None
  end.

(** node.rs 349-364: the loop of [Node::retain_children]; state is the heap, the current child
    and [previously_retained]. *)
Fixpoint retain_loop (fuel : nat) (h : heap) (self : nat) (cur prevr : option nat)
  (f : nat -> bool) : option heap :=
  match cur with
  | None => Some h
  | Some c =>
      match fuel with
      | O => None
      | S fuel =>
          let nx := next (h c) in
          if f c then
            let h := set_prev h c prevr in
            let h := match prevr with
                     | None => set_first h self (Some c)
                     | Some _ => h
                     end in
            let h := set_last h self (Some c) in
            retain_loop fuel h self nx (Some c) f
          else
            let h := set_parent h c None in
            let h := set_prev h c None in
            let h := set_next h c None in
            retain_loop fuel h self nx prevr f
      end
  end.

(** node.rs 342-365 [Node::retain_children]; the callback is a pure predicate. *)
Definition retain_children (fuel : nat) (h : heap) (self : nat) (f : nat -> bool)
  : option heap :=
  let h := set_last h self None in
  let cur := first (h self) in
  let h := set_first h self None in
  retain_loop fuel h self cur None f.

(** node.rs 114-119 [ChildNodes]. *)
Record iter : Type := mkIter {
  front : option nat;
  front_next : option nat;
  end_prev : option nat;
  iend : option nat
}.

(** [Option<Ref>::is_some_and(|e| e == current)] as used at node.rs 132 and 151. *)
Definition oeqb (a : option nat) (b : nat) : bool :=
  match a with Some a => a =? b | None => false end.

(** node.rs 245-255 [Node::child_nodes_iter]. *)
Definition child_nodes_iter (h : heap) (self : nat) : iter :=
  {| front := first (h self);
     front_next := match first (h self) with Some f => next (h f) | None => None end;
     end_prev := match last (h self) with Some e => prev (h e) | None => None end;
     iend := last (h self) |}.

(** node.rs 133-136 / 152-155: all four cursors cleared. *)
Definition exhausted : iter :=
  {| front := None; front_next := None; end_prev := None; iend := None |}.

(** node.rs 124-141 [ChildNodes::next]. *)
Definition iter_next (h : heap) (it : iter) : iter * option nat :=
  match front it with
  | None => (it, None)
  | Some cur =>
      let nfn := match front_next it with Some f => next (h f) | None => None end in
      let it' := {| front := front_next it; front_next := nfn;
                    end_prev := end_prev it; iend := iend it |} in
      (if oeqb (iend it) cur then exhausted else it', Some cur)
  end.

(** node.rs 145-161 [ChildNodes::next_back]. *)
Definition iter_next_back (h : heap) (it : iter) : iter * option nat :=
  match iend it with
  | None => (it, None)
  | Some cur =>
      let nep := match end_prev it with Some e => prev (h e) | None => None end in
      let it' := {| front := front it; front_next := front_next it;
                    end_prev := nep; iend := end_prev it |} in
      (if oeqb (front it) cur then exhausted else it', Some cur)
  end.

(** [Iterator::collect] over a [ChildNodes] (std), with fuel (node.rs:121-142, 744). *)
Fixpoint collect (fuel : nat) (h : heap) (it : iter) : option (list nat) :=
  match fuel with
  | O => None
  | S fuel =>
      match iter_next h it with
      | (_, None) => Some []
      | (it, Some c) =>
          match collect fuel h it with
          | Some l => Some (c :: l)
          | None => None
          end
      end
  end.

(** [DoubleEndedIterator::rev().collect()] (std), with fuel (node.rs:144-160). *)
Fixpoint collect_back (fuel : nat) (h : heap) (it : iter) : option (list nat) :=
  match fuel with
  | O => None
  | S fuel =>
      match iter_next_back h it with
      | (_, None) => Some []
      | (it, Some c) =>
          match collect_back fuel h it with
          | Some l => Some (c :: l)
          | None => None
          end
      end
  end.

(** A caller pulling from both ends: [true] = [next], [false] = [next_back]; the answers are
    returned in call order (node.rs:114-160). *)
Fixpoint drive (h : heap) (it : iter) (sched : list bool) : iter * list (option nat) :=
  match sched with
  | [] => (it, [])
  | b :: sched =>
      let (it, r) := if b then iter_next h it else iter_next_back h it in
      let (it, rs) := drive h it sched in
      (it, r :: rs)
  end.

(** node.rs 444-446 [Node::item] ([Iterator::nth]). *)
Fixpoint iter_nth (h : heap) (it : iter) (k : nat) : option nat :=
  let (it, r) := iter_next h it in
  match r with
  | None => None
  | Some c => match k with O => Some c | S k => iter_nth h it k end
  end.
(** node.rs:444-446 [Node::item]. *)
Definition item (h : heap) (self k : nat) : option nat :=
  iter_nth h (child_nodes_iter h self) k.

(** node.rs 668-681 [Node::child_index]. *)
Fixpoint child_index_loop (fuel : nat) (h : heap) (it : iter) (c idx : nat) : option (option nat) :=
  match fuel with
  | O => None
  | S fuel =>
      match iter_next h it with
      | (_, None) => Some None
      | (it, Some s) => if s =? c then Some (Some idx)
                        else child_index_loop fuel h it c (S idx)
      end
  end.
(** node.rs:668-681 [Node::child_index]. *)
Definition child_index (fuel : nat) (h : heap) (self c : nat) : option (option nat) :=
  child_index_loop fuel h (child_nodes_iter h self) c 0.

(** node.rs 653-665 [Node::insert]. *)
Definition insert (h : heap) (self idx new : nat) : heap :=
  match idx with
  | O => match first (h self) with
         | Some f => insert_before h self new f
         | None => append_child h self new
         end
  | S k => match item h self k with
           | Some p => insert_after h self new p
           | None => append_child h self new
           end
  end.

(** element.rs 694-702, the relinking loop of [Element::sort_child_elements]:
    [children] is the vector after [sort_by]. *)
Fixpoint relink (h : heap) (i : nat) (before_ : option nat) (children : list nat) : heap :=
  match children with
  | [] => h
  | c :: rest =>
      let h := if 0 <? i then set_prev h c before_ else h in
      let h := set_next h c (hd_error rest) in
      relink h (S i) (Some c) rest
  end.

(** [slice::last] (std), as used at element.rs 695. *)
Definition last_error (l : list nat) : option nat :=
  match rev l with [] => None | x :: _ => Some x end.

(** element.rs 694-702. *)
Definition sort_relink (h : heap) (self : nat) (children : list nat) : heap :=
  let h := set_first h self (hd_error children) in
  let h := set_last h self (last_error children) in
  relink h 0 None children.

(** element.rs 684-692: the comparator handed to [sort_by]. *)
Definition sort_cmp (h : heap) (f : nat -> nat -> comparison) (a b : nat) : comparison :=
  match element_new h a with
  | None => Lt
  | Some a => match element_new h b with
              | None => Gt
              | Some b => f a b
              end
  end.

(** element.rs 351-371 [Element::replace_children]; the loop over [tuple_windows]. *)
Fixpoint replace_children_loop (h : heap) (self : nat) (children : list nat)
  (lst : option nat) : heap * option nat :=
  match children with
  | a :: ((b :: _) as rest) =>
      let h := set_parent h a (Some self) in
      let h := set_next h a (Some b) in
      let h := set_prev h b (Some a) in
      replace_children_loop h self rest (Some b)
  | _ => (h, lst)
  end.
(** element.rs:351-371 [Element::replace_children]. *)
Definition replace_children (h : heap) (self : nat) (children : list nat) : heap :=
  let fst := hd_error children in
  let h := set_first h self fst in
  let h := match fst with Some f => set_prev h f None | None => h end in
  let (h, lst) := replace_children_loop h self children fst in
  let h := match lst with
           | Some l => set_next (set_parent h l (Some self)) l None
           | None => h
           end in
  set_last h self lst.

(** node.rs 528-543 [Node::set_text_content] (the fresh text node id is an argument). *)
Definition set_text_content (h : heap) (self fresh content : nat) : heap :=
  match ndata (h self) with
  | DText _ => fun m => if m =? self then
      {| parent := parent (h m); next := next (h m); prev := prev (h m);
         first := first (h m); last := last (h m); ndata := DText content |} else h m
  | DElement _ _ =>
      let h := empty h self in
      let h := alloc h fresh (DText content) in
      append_child h self fresh
  | _ => h
  end.

(** [slice::sort_by] (std): the stable sorted permutation for a total order.  Modelled as a
    stable insertion sort (std guarantees the same result for a total order; for other
    comparators std only promises some permutation or a panic) (element.rs:684). *)
Fixpoint sort_ins (cmp : nat -> nat -> comparison) (x : nat) (l : list nat) : list nat :=
  match l with
  | [] => [x]
  | y :: r => match cmp x y with
              | Gt => y :: sort_ins cmp x r
              | _ => x :: y :: r
              end
  end.
(** std [slice::sort_by], as called at element.rs 684. *)
Fixpoint sort_by (cmp : nat -> nat -> comparison) (l : list nat) : list nat :=
  match l with
  | [] => []
  | x :: r => sort_ins cmp x (sort_by cmp r)
  end.

(** element.rs 679-703 [Element::sort_child_elements]; [None] is a non-terminating child
    iteration. *)
Definition sort_child_elements (fuel : nat) (h : heap) (self : nat)
  (f : nat -> nat -> comparison) : option heap :=
  match collect fuel h (child_nodes_iter h self) with
  | None => None
  | Some children => Some (sort_relink h self (sort_by (sort_cmp h f) children))
  end.
