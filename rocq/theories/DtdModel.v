(** Validation against a DTD: src/axl_dtd.c.

    Simplifications: the errors reported (and with them try_match, which only selects what
    is reported) are dropped; the parent node is the list of the names of its child elements
    (axl_node_get_child_num and axl_node_get_child_nth count elements only: C47), its
    attributes and whether axl_node_is_empty holds; the lists of the DTD are Coq lists;
    axl_cmp on two strings is [bytes_eqb] (C14); an element node is the tree of its child
    elements. *)
From Verif Require Import Prelude HashModel HashStrProofs.
Open Scope nat_scope.
Open Scope list_scope.

(** ** Content specifications *)
(** AxlDtdTimes, axl_decl.h:436-463 *)
Inductive times := TUnknown | TOne | TOpt | TMany | TPlus.
(** AxlDtdNestedType, axl_decl.h:333-352 *)
Inductive nested := Undef | Choice | Sequence.
(** struct _axlDtdElementListNode and struct _axlDtdElementList, axl_dtd.c:48-83.  The [times]
    of a node that holds a list is never set: it is DTD_TIMES_UNKNOWN. *)
Inductive part :=
| Leaf (name : bytes) (t : times)
| Group (ty : nested) (t : times) (ps : list part).
(** axl_dtd_item_node_get_repeat, axl_dtd.c:3856-3876 *)
Definition repeat_of (p : part) : times := match p with Leaf _ t => t | Group _ t _ => t end.
Definition times_eqb (a b : times) : bool :=
  match a, b with TUnknown, TUnknown => true | TOne, TOne => true | TOpt, TOpt => true | TMany, TMany => true | TPlus, TPlus => true | _, _ => false end.
Definition is_sequence (ty : nested) : bool := match ty with Sequence => true | _ => false end.
Definition is_choice (ty : nested) : bool := match ty with Choice => true | _ => false end.

(** __axl_dtd_parse_element_get_compulsory_num, axl_dtd.c:1093-1142: the items that hold a list
    have unknown times and do not count *)
Fixpoint compulsory_items (ty : nested) (count : nat) (ps : list part) : nat :=
  match ps with
  | [] => count
  | Leaf _ t :: ps => if times_eqb t TPlus || times_eqb t TOne then if is_choice ty then S count else compulsory_items ty (S count) ps else compulsory_items ty count ps
  | Group _ _ _ :: ps => compulsory_items ty count ps
  end.
Definition compulsory_num (p : part) : nat :=
  match p with
  | Group ty t ps => if times_eqb t TOne || times_eqb t TPlus then compulsory_items ty 0 ps else 0
  | Leaf _ _ => 0
  end.

Section Validate.
(** the names of the child elements *)
Variable kids : list bytes.
Variable fuel : nat.

(** ** sequences *)
(** how the loop over the children for one item ends: the function returns, or goes on with the
    next item *)
Inductive step := Return (b : bool) (pos : nat) | Next (pos : nat) (status : bool).
(** no child is left, axl_dtd.c:2080-2139.  [times] is that of the current item also while the
    rest of the items is looked at. *)
Definition exhausted (t : times) (one_matched status last : bool) (pos : nat) : step :=
  if times_eqb t TPlus && one_matched && status then if last then Return true pos else Next pos status
  else if times_eqb t TMany || times_eqb t TOpt then Return true pos else Return false pos.
(** axl_dtd.c:2066-2264 for an item that is a name *)
Fixpoint leaf_loop (fuel : nat) (y : bytes) (t : times) (last one_matched status : bool) (pos : nat) : res step :=
  match nth_error kids pos with
  | None => Ok (exhausted t one_matched status last pos)
  | Some x =>
    match fuel with
    | O => NoFuel
    | S fuel =>
      let status := bytes_eqb x y in
      if (times_eqb t TOne || (times_eqb t TPlus && negb one_matched)) && negb status then Ok (Return false pos)
      else match t with
           | TOne => Ok (Next (S pos) status)
           | TPlus => if negb status && one_matched then Ok (Next pos status) else leaf_loop fuel y t last true status (S pos)
           | TOpt => Ok (Next (if status then S pos else pos) status)
           | TMany => if status then leaf_loop fuel y t last true status (S pos) else Ok (Next pos status)
           | TUnknown => leaf_loop fuel y t last one_matched status pos
           end
    end
  end.
(** axl_dtd.c:2055-2268; [rec] is __axl_dtd_validate_item_list with top_level false *)
Definition seq_items (rec : part -> nat -> res (bool * nat)) : list part -> nat -> bool -> res step :=
  fix go ps pos status :=
    match ps with
    | [] => Ok (Next pos status)
    | p :: ps =>
      let last := match ps with [] => true | _ => false end in
      s <- match p with
           | Leaf y t => leaf_loop fuel y t last false status pos
           | Group _ t _ =>
             match nth_error kids pos with
             | None => Ok (exhausted t false status last pos)
             | Some _ => ' (b, pos) <- rec p pos ;; Ok (if b : bool then Next pos status else Return false pos)
             end
           end ;;
      match s with Return b pos => Ok (Return b pos) | Next pos status => go ps pos status end
    end.
(** __axl_dtd_validate_sequence, axl_dtd.c:2032-2298 *)
Definition validate_sequence (rec : part -> nat -> res (bool * nat)) (t : times) (ps : list part) (pos : nat) (top : bool) : res (bool * nat) :=
  s <- seq_items rec ps pos false ;;
  match s with
  | Return b pos => Ok (b, pos)
  | Next pos _ => if (times_eqb t TPlus || times_eqb t TOne) && top && (pos <? length kids) then Ok (false, pos) else Ok (true, pos)
  end.

(** ** choices *)
(** axl_dtd.c:2342-2387: whether the choice has been matched, and the position *)
Fixpoint choice_leaf (fuel : nat) (y : bytes) (t : times) (node : bytes) (one_match : bool) (pos : nat) : res (bool * nat) :=
  match fuel with
  | O => NoFuel
  | S fuel =>
    if bytes_eqb node y then
      let pos := S pos in
      if times_eqb t TOne || times_eqb t TOpt then Ok (true, pos)
      else if times_eqb t TPlus || times_eqb t TMany then
        match nth_error kids pos with
        | None => Ok (true, pos)
        | Some node => choice_leaf fuel y t node true pos
        end
      else Ok (false, pos)
    else Ok ((times_eqb t TPlus || times_eqb t TMany) && one_match, pos)
  end.
(** axl_dtd.c:2334-2408 *)
Definition choice_items (rec : part -> nat -> res (bool * nat)) (node : bytes) : list part -> nat -> res (bool * nat) :=
  fix go ps pos :=
    match ps with
    | [] => Ok (false, pos)
    | p :: ps =>
      ' (b, pos) <- match p with Leaf y t => choice_leaf fuel y t node false pos | Group _ _ _ => rec p pos end ;;
      if b : bool then Ok (true, pos) else go ps pos
    end.
(** __axl_dtd_validate_choice, axl_dtd.c:2305-2409 *)
Definition validate_choice (rec : part -> nat -> res (bool * nat)) (ps : list part) (pos : nat) : res (bool * nat) :=
  match nth_error kids pos with
  | None => Ok (false, pos)
  | Some node => choice_items rec node ps pos
  end.

(** the loops of axl_dtd.c:2521-2550 and 2562-2611: again until it fails; a sequence that has
    matched partially ([strict]) makes the whole fail *)
Fixpoint many_loop (fuel : nat) (strict : bool) (f : nat -> res (bool * nat)) (pos : nat) : res (bool * nat) :=
  match fuel with
  | O => NoFuel
  | S fuel =>
    ' (b, pos') <- f pos ;;
    if b : bool then many_loop fuel strict f pos'
    else if strict && negb (Nat.eqb pos pos') then Ok (false, pos') else Ok (true, pos')
  end.

(** __axl_dtd_validate_item_list, axl_dtd.c:2433-2642 *)
Definition item_list_with (rec : part -> nat -> res (bool * nat)) (ty : nested) (t : times) (ps : list part) (pos : nat) (top : bool) : res (bool * nat) :=
  let once pos := if is_sequence ty then validate_sequence rec t ps pos top else validate_choice rec ps pos in
  ' (b, pos) <- match t with
                | TOne => once pos
                | TOpt => ' (b, pos) <- once pos ;; if is_sequence ty then Ok (b, pos) else Ok (true, pos)
                | TMany => many_loop fuel (is_sequence ty) once pos
                | TPlus => many_loop fuel (is_sequence ty) once pos
                | TUnknown => Ok (false, pos)
                end ;;
  if negb b then Ok (false, pos)
  else if top && is_choice ty && (pos + 1 <? length kids) then Ok (false, pos) else Ok (true, pos).
Fixpoint item_list (p : part) (pos : nat) : res (bool * nat) :=
  match p with
  | Leaf _ _ => UB
  | Group ty t ps => item_list_with item_list ty t ps pos false
  end.
(** the same from __axl_dtd_validate_element_type_children *)
Definition item_list_top (p : part) (top : bool) : res (bool * nat) :=
  match p with
  | Leaf _ _ => UB
  | Group ty t ps => item_list_with item_list ty t ps 0 top
  end.
(** __axl_dtd_validate_element_type_children, axl_dtd.c:2650-2695 *)
Definition validate_children (p : part) (minimum_match : nat) (top : bool) : res bool :=
  if length kids <? minimum_match then Ok false
  else ' (b, pos) <- item_list_top p top ;; Ok (b && negb (pos <? length kids)).
End Validate.
