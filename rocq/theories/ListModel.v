(** Model of src/axl_list.c: a doubly linked list with a pool of spare cells.

    Simplifications (whole file): [axl_new]/[realloc] never fail and return
    zeroed / preserved memory; [int] is unbounded; a NULL list argument (which
    every entry point rejects) is not modelled; log calls are dropped.  Data
    pointers are values of an abstract type [D] with a distinguished [null]. *)
From Verif Require Import Prelude.
Open Scope Z_scope.

Section ListModel.
Variable D : Type.
Variable null : D.
Variable deqb : D -> D -> bool.        (* pointer equality [==] *)
Variable cmp : D -> D -> Z.            (* list->are_equal *)
Variable has_destroy : bool.           (* list->destroy_data != NULL *)

(** struct _axlListNode, axl_list.c:68-72 *)
Record cell := Cell { c_prev : option nat; c_next : option nat; c_data : D }.

(** struct _axlList, axl_list.c:49-66, together with the heap of list cells, the
    next fresh address, and the trace of destroy_data calls.  [pool] is the
    array [preallocated] ([None] = uninitialised slot); its size is
    [allocated]. *)
Record lst := Lst {
  first : option nat;
  last_ : option nat;
  len : Z;
  pool : list (option nat);
  avail : nat;
  heap : nat -> option cell;
  fresh : nat;
  dtrace : list D
}.

Definition set_first s v := Lst v (last_ s) (len s) (pool s) (avail s) (heap s) (fresh s) (dtrace s).
Definition set_last s v := Lst (first s) v (len s) (pool s) (avail s) (heap s) (fresh s) (dtrace s).
Definition set_len s v := Lst (first s) (last_ s) v (pool s) (avail s) (heap s) (fresh s) (dtrace s).
Definition set_pool s p a := Lst (first s) (last_ s) (len s) p a (heap s) (fresh s) (dtrace s).
Definition set_heap s h := Lst (first s) (last_ s) (len s) (pool s) (avail s) h (fresh s) (dtrace s).
Definition set_fresh s f := Lst (first s) (last_ s) (len s) (pool s) (avail s) (heap s) f (dtrace s).
Definition set_trace s t := Lst (first s) (last_ s) (len s) (pool s) (avail s) (heap s) (fresh s) t.

Definition upd (h : nat -> option cell) (a : nat) (c : cell) : nat -> option cell :=
  fun x => if Nat.eqb x a then Some c else h x.

(** reading / writing through a cell pointer *)
Definition rd (s : lst) (a : nat) : res cell := of_option (heap s a).
Definition wr (s : lst) (a : nat) (f : cell -> cell) : res lst :=
  c <- rd s a ;; Ok (set_heap s (upd (heap s) a (f c))).
Definition w_next v (c : cell) := Cell (c_prev c) v (c_data c).
Definition w_prev v (c : cell) := Cell v (c_next c) (c_data c).
Definition w_data v (c : cell) := Cell (c_prev c) (c_next c) v.

(** writing an array slot; UB outside the array *)
Fixpoint set_nth {A} (l : list A) (n : nat) (v : A) : option (list A) :=
  match l, n with
  | [], _ => None
  | _ :: l', O => Some (v :: l')
  | x :: l', S n' => match set_nth l' n' v with Some r => Some (x :: r) | None => None end
  end.

(** axl_list_new, axl_list.c:315-333 *)
Definition list_new : lst := Lst None None 0 [] 0 (fun _ => None) 0 [].

(** __axl_list_allocate_nodes, axl_list.c:107-162 (no allocation failure):
    available = 1, allocated += 1, the array grows by one (uninitialised) slot,
    preallocated[0] gets a fresh zeroed cell. *)
Definition allocate_nodes (s : lst) : res lst :=
  p <- of_option (set_nth (pool s ++ [None]) 0 (Some (fresh s))) ;;
  let h := upd (heap s) (fresh s) (Cell None None null) in
  Ok (Lst (first s) (last_ s) (len s) p 1 h (S (fresh s)) (dtrace s)).

(** __axl_list_dispose_node, axl_list.c:170-179 *)
Definition dispose_node (s : lst) (a : nat) : res lst :=
  p <- of_option (set_nth (pool s) (avail s) (Some a)) ;;
  Ok (set_pool s p (S (avail s))).

(** __axl_list_get_next_node_available, axl_list.c:186-210 *)
Definition get_node (s : lst) : res (nat * lst) :=
  s <- (if Nat.eqb (avail s) 0 then allocate_nodes s else Ok s) ;;
  o <- of_option (nth_error (pool s) (avail s - 1)) ;;
  a <- of_option o ;;
  let s := set_pool s (pool s) (avail s - 1) in
  s <- wr s a (fun _ => Cell None None null) ;;
  Ok (a, s).

(** insertion of [new] just before [node], axl_list.c:608-622 *)
Definition insert_before (s : lst) (new node : nat) : res lst :=
  s <- wr s new (w_next (Some node)) ;;
  c <- rd s node ;;
  s <- wr s new (w_prev (c_prev c)) ;;
  s <- wr s node (w_prev (Some new)) ;;
  cn <- rd s new ;;
  s <- (match c_prev cn with
        | Some p => wr s p (w_next (Some new))
        | None => Ok (set_first s (Some new))
        end) ;;
  Ok (set_len s (len s + 1)).

(** insertion of [new] just after [node], axl_list.c:646-660 *)
Definition insert_after (s : lst) (new node : nat) : res lst :=
  s <- wr s new (w_prev (Some node)) ;;
  c <- rd s node ;;
  s <- wr s new (w_next (c_next c)) ;;
  s <- wr s node (w_next (Some new)) ;;
  cn <- rd s new ;;
  s <- (match c_next cn with
        | Some p => wr s p (w_prev (Some new))
        | None => Ok (set_last s (Some new))
        end) ;;
  Ok (set_len s (len s + 1)).

(** the search loop of axl_list_add, axl_list.c:604-663; [fuel] bounds the number
    of rounds *)
Fixpoint add_loop (fuel : nat) (s : lst) (new : nat) (x : D)
                  (node node2 : option nat) : res lst :=
  match fuel with
  | O => NoFuel
  | S fuel' =>
    match node, node2 with
    | None, None => Ok s
    | _, _ =>
      (* head, 606-632; [inl s'] = function returned *)
      r <- (match node with
            | None => Ok (inr None)
            | Some a =>
              c <- rd s a ;;
              let v := cmp (c_data c) x in
              if v =? -1 then (s' <- insert_before s new a ;; Ok (inl s'))
              else if v =? 0 then Ok (inl s)
              else Ok (inr (c_next c))
            end) ;;
      match r with
      | inl s' => Ok s'
      | inr node' =>
        (* tail, 635-662 *)
        r2 <- (match node2 with
               | None => Ok (inr None)
               | Some a =>
                 c <- rd s a ;;
                 let v := cmp (c_data c) x in
                 if v =? 0 then Ok (inl s)
                 else if v =? 1 then (s' <- insert_after s new a ;; Ok (inl s'))
                 else Ok (inr (c_prev c))
               end) ;;
        match r2 with
        | inl s' => Ok s'
        | inr node2' => add_loop fuel' s new x node' node2'
        end
      end
    end
  end.

(** a bound that suffices for every walk along the list *)
Definition walk_fuel (s : lst) : nat := S (S (length (pool s))).

(** axl_list_add, axl_list.c:575-667 *)
Definition list_add (s : lst) (x : D) : res lst :=
  '(new, s) <- get_node s ;;
  s <- wr s new (w_data x) ;;
  match first s with
  | None =>
    Ok (set_len (set_last (set_first s (Some new)) (Some new)) 1)
  | Some _ => add_loop (walk_fuel s) s new x (first s) (last_ s)
  end.

(** axl_list_prepend, axl_list.c:766-793 *)
Definition list_prepend (s : lst) (x : D) : res lst :=
  '(new, s) <- get_node s ;;
  s <- wr s new (w_data x) ;;
  s <- (match first s with
        | None => Ok (set_last (set_first s (Some new)) (Some new))
        | Some f =>
          s <- wr s f (w_prev (Some new)) ;;
          s <- wr s new (w_next (Some f)) ;;
          Ok (set_first s (Some new))
        end) ;;
  Ok (set_len s (len s + 1)).

(** axl_list_append, axl_list.c:806-833 *)
Definition list_append (s : lst) (x : D) : res lst :=
  '(new, s) <- get_node s ;;
  s <- wr s new (w_data x) ;;
  s <- (match last_ s with
        | None => Ok (set_last (set_first s (Some new)) (Some new))
        | Some l =>
          s <- wr s l (w_next (Some new)) ;;
          s <- wr s new (w_prev (Some l)) ;;
          Ok (set_last s (Some new))
        end) ;;
  Ok (set_len s (len s + 1)).

(** the loop of axl_list_add_at, axl_list.c:732-739: advance [k] times *)
Fixpoint advance (s : lst) (k : nat) (node : option nat) : res (option nat) :=
  match k with
  | O => Ok node
  | S k' =>
    a <- of_option node ;;
    c <- rd s a ;;
    advance s k' (c_next c)
  end.

(** axl_list_add_at, axl_list.c:691-754 *)
Definition list_add_at (s : lst) (x : D) (position : Z) : res lst :=
  if position <=? 0 then list_prepend s x
  else if len s <=? position then list_append s x
  else
    '(new, s) <- get_node s ;;
    s <- wr s new (w_data x) ;;
    f <- of_option (first s) ;;
    cf <- rd s f ;;
    node <- advance s (Z.to_nat (position - 1)) (c_next cf) ;;
    node <- of_option node ;;
    cn <- rd s node ;;
    s <- wr s new (w_prev (c_prev cn)) ;;
    s <- (match c_prev cn with
          | Some p => wr s p (w_next (Some new))
          | None => Ok s
          end) ;;
    s <- wr s new (w_next (Some node)) ;;
    s <- wr s node (w_prev (Some new)) ;;
    Ok (set_len s (len s + 1)).

(** axl_list_internal_linear_lookup (846-867), _lookup_ptr (880-898) and the
    search of axl_list_lookup (1493-1518): first cell whose data satisfies
    [test] *)
Fixpoint linear_lookup (fuel : nat) (s : lst) (test : D -> bool) (node : option nat)
  : res (option nat) :=
  match fuel with
  | O => NoFuel
  | S fuel' =>
    match node with
    | None => Ok None
    | Some a =>
      c <- rd s a ;;
      if test (c_data c) then Ok (Some a) else linear_lookup fuel' s test (c_next c)
    end
  end.

(** axl_list_internal_lookup, axl_list.c:911-966 (note that the tail cursor
    moves to [next], line 950).  The NULL-pointer guard is in the callers. *)
Fixpoint lookup_loop (fuel : nat) (s : lst) (x : D) (node node2 : option nat)
  : res (option nat) :=
  match fuel with
  | O => NoFuel
  | S fuel' =>
    match node, node2 with
    | None, None => Ok None
    | _, _ =>
      r <- (match node with
            | None => Ok (inr None)
            | Some a =>
              c <- rd s a ;;
              let v := cmp (c_data c) x in
              if v =? 0 then Ok (inl (Some a))
              else if v =? 1 then Ok (inr (c_next c))
              else Ok (inl None)
            end) ;;
      match r with
      | inl o => Ok o
      | inr node' =>
        r2 <- (match node2 with
               | None => Ok (inr None)
               | Some a =>
                 c <- rd s a ;;
                 let v := cmp (c_data c) x in
                 if v =? -1 then Ok (inr (c_next c))
                 else if v =? 0 then Ok (inl (Some a))
                 else Ok (inl None)
               end) ;;
        match r2 with
        | inl o => Ok o
        | inr node2' => lookup_loop fuel' s x node' node2'
        end
      end
    end
  end.

(** axl_list_exists, axl_list.c:1349-1357 *)
Definition list_exists (s : lst) (x : D) : res bool :=
  if deqb x null then Ok false
  else
    o <- lookup_loop (walk_fuel s) s x (first s) (last_ s) ;;
    Ok (match o with Some _ => true | None => false end).

(** axl_list_internal_get_nth, axl_list.c:980-999.  The loop stops at NULL or
    at the position; [it] counts down the distance. *)
Fixpoint nth_loop (s : lst) (dist : nat) (node : option nat) : res (option nat) :=
  match node with
  | None => Ok None
  | Some a =>
    match dist with
    | O => Ok (Some a)
    | S d => c <- rd s a ;; nth_loop s d (c_next c)
    end
  end.

Definition internal_get_nth (s : lst) (position : Z) : res (option nat) :=
  if (0 <=? position) && (position <? len s)
  then nth_loop s (Z.to_nat position) (first s)
  else Ok None.

Definition data_of (s : lst) (o : option nat) : res D :=
  match o with
  | None => Ok null
  | Some a => c <- rd s a ;; Ok (c_data c)
  end.

(** axl_list_get_nth 1444-1452, axl_list_get_first 1407-1414,
    axl_list_get_last 1424-1431 *)
Definition list_get_nth (s : lst) (position : Z) : res D :=
  o <- internal_get_nth s position ;; data_of s o.
Definition list_get_first (s : lst) : res D := data_of s (first s).
Definition list_get_last (s : lst) : res D := data_of s (last_ s).

(** axl_list_exists_at, axl_list.c:1386-1396 *)
Definition list_exists_at (s : lst) (x : D) (position : Z) : res bool :=
  o <- internal_get_nth s position ;;
  match o with
  | None => Ok false
  | Some a => c <- rd s a ;; Ok (cmp (c_data c) x =? 0)
  end.

(** axl_list_lookup, axl_list.c:1493-1518 *)
Definition list_lookup (s : lst) (f : D -> bool) : res D :=
  o <- linear_lookup (walk_fuel s) s f (first s) ;; data_of s o.

(** __axl_list_common_remove_selected_node, axl_list.c:1002-1037 *)
Definition remove_selected (s : lst) (a : nat) (also_remove : bool) : res lst :=
  c <- rd s a ;;
  s <- (match c_prev c with
        | None => Ok (set_first s (c_next c))
        | Some p => wr s p (w_next (c_next c))
        end) ;;
  s <- (match c_next c with
        | None => Ok (set_last s (c_prev c))
        | Some n => wr s n (w_prev (c_prev c))
        end) ;;
  let s := if also_remove && has_destroy then set_trace s (dtrace s ++ [c_data c]) else s in
  s <- dispose_node s a ;;
  Ok (set_len s (len s - 1)).

Definition remove_found (s : lst) (o : option nat) (also_remove : bool) : res lst :=
  match o with
  | None => Ok s
  | Some a => remove_selected s a also_remove
  end.

(** axl_list_common_remove, axl_list.c:1056-1077; axl_list_remove 1100,
    axl_list_unlink 1197 ([also] = false), axl_list_remove_ptr 1179,
    axl_list_unlink_ptr 1219 *)
Definition list_remove (s : lst) (x : D) (also : bool) : res lst :=
  o <- linear_lookup (walk_fuel s) s (fun d => cmp d x =? 0) (first s) ;;
  remove_found s o also.
Definition list_remove_ptr (s : lst) (x : D) (also : bool) : res lst :=
  o <- linear_lookup (walk_fuel s) s (fun d => deqb d x) (first s) ;;
  remove_found s o also.

(** __axl_list_remove_at_common, axl_list.c:1117-1145: no range check; a
    negative position never equals the counter, so the walk runs to the end. *)
Fixpoint at_loop (fuel : nat) (s : lst) (it position : Z) (node : option nat)
  : res (option nat) :=
  match fuel with
  | O => NoFuel
  | S fuel' =>
    match node with
    | None => Ok None
    | Some a =>
      if it =? position then Ok (Some a)
      else (c <- rd s a ;; at_loop fuel' s (it + 1) position (c_next c))
    end
  end.
Definition list_remove_at (s : lst) (position : Z) (also : bool) : res lst :=
  o <- at_loop (walk_fuel s) s 0 position (first s) ;;
  remove_found s o also.

(** axl_list_remove_first 1261 / unlink_first 1282 / remove_last 1303 /
    unlink_last 1323 *)
Definition list_remove_first (s : lst) (also : bool) : res lst := remove_found s (first s) also.
Definition list_remove_last (s : lst) (also : bool) : res lst := remove_found s (last_ s) also.

(** axl_list_is_empty 1368, axl_list_length 1552 *)
Definition list_is_empty (s : lst) : bool :=
  match first s with None => true | Some _ => false end.
Definition list_length (s : lst) : Z := len s.

(** axl_list_free, axl_list.c:1564-1597: destroy the data and release every
    linked cell, then release the first [available] pool slots.  The result is
    the final destroy trace and the list of freed cell addresses. *)
Fixpoint free_loop (fuel : nat) (s : lst) (node : option nat) (freed : list nat)
  : res (lst * list nat) :=
  match fuel with
  | O => NoFuel
  | S fuel' =>
    match node with
    | None => Ok (s, freed)
    | Some a =>
      c <- rd s a ;;
      let s := if has_destroy then set_trace s (dtrace s ++ [c_data c]) else s in
      free_loop fuel' s (c_next c) (freed ++ [a])
    end
  end.
Fixpoint pool_firstn (p : list (option nat)) (n : nat) : res (list nat) :=
  match n with
  | O => Ok []
  | S n' =>
    match p with
    | Some a :: p' => r <- pool_firstn p' n' ;; Ok (a :: r)
    | _ => UB
    end
  end.
Definition list_free (s : lst) : res (list D * list nat) :=
  '(s, freed) <- free_loop (walk_fuel s) s (first s) [] ;;
  spare <- pool_firstn (pool s) (avail s) ;;
  Ok (dtrace s, freed ++ spare).

(** axl_list_copy, axl_list.c:376-410: builds the new list with axl_list_add on
    the elements taken one by one with axl_list_get_nth.  [dup] is the duplicate
    function ([fun d => d] when NULL). *)
Fixpoint copy_loop (n : nat) (it : Z) (s : lst) (dup : D -> D) (r : lst) : res lst :=
  match n with
  | O => Ok r
  | S n' =>
    d <- list_get_nth s it ;;
    r <- list_add r (dup d) ;;
    copy_loop n' (it + 1) s dup r
  end.
Definition list_copy (s : lst) (dup : D -> D) : res lst :=
  copy_loop (Z.to_nat (len s)) 0 s dup list_new.

(** Cursors, axl_list.c:1666-1900.  A cursor is the current cell pointer. *)
Definition cursor_new (s : lst) : option nat := first s.                   (* 1666 *)
Definition cursor_first (s : lst) : option nat :=                          (* 1688 *)
  if len s =? 0 then None else first s.
Definition cursor_last (s : lst) : option nat := last_ s.                  (* 1710 *)
Definition cursor_next (s : lst) (cur : option nat) : res (option nat) :=  (* 1727 *)
  match cur with None => Ok None | Some a => c <- rd s a ;; Ok (c_next c) end.
Definition cursor_previous (s : lst) (cur : option nat) : res (option nat) := (* 1745 *)
  match cur with None => Ok None | Some a => c <- rd s a ;; Ok (c_prev c) end.
Definition cursor_has_next (s : lst) (cur : option nat) : res bool :=      (* 1766 *)
  match cur with
  | None => Ok false
  | Some a => c <- rd s a ;; Ok (match c_next c with Some _ => true | None => false end)
  end.
Definition cursor_has_item (cur : option nat) : bool :=                    (* 1809 *)
  match cur with None => false | Some _ => true end.
Definition cursor_get (s : lst) (cur : option nat) : res D := data_of s cur. (* 1890 *)
(** axl_list_cursor_unlink 1828 ([also] = false) / axl_list_cursor_remove 1862 *)
Definition cursor_remove (s : lst) (cur : option nat) (also : bool) : res (lst * option nat) :=
  match cur with
  | None => Ok (s, None)
  | Some a =>
    c <- rd s a ;;
    let cur' := match c_next c with Some n => Some n | None => c_prev c end in
    s <- remove_selected s a also ;;
    Ok (s, cur')
  end.

End ListModel.

Arguments Cell {D}.
Arguments Lst {D}.

(** Comparison functions shipped with the library. *)

(** axl_list_equal_int, axl_list.c:494-503 (PTR_TO_INT truncation not modelled) *)
Definition list_equal_int (a b : Z) : Z :=
  if a =? b then 0 else if a <? b then -1 else 1.

(** axl_list_equal_ptr, axl_list.c:523-529 *)
Definition list_equal_ptr (a b : Z) : Z := if a =? b then 0 else -1.

(** axl_list_always_return_1, axl_list.c:553-556 *)
Definition list_always_return_1 {D : Type} (a b : D) : Z := 1.

(** strcmp on C strings as a sign (unsigned bytes) *)
Fixpoint strcmp (a b : bytes) : Z :=
  match a, b with
  | [], [] => 0
  | [], _ :: _ => -1
  | _ :: _, [] => 1
  | x :: a', y :: b' =>
    match N.compare (N_of_ascii x) (N_of_ascii y) with
    | Lt => -1
    | Gt => 1
    | Eq => strcmp a' b'
    end
  end.

(** axl_list_order_string, axl_list.c:456-466 *)
Definition list_order_string (a b : bytes) : Z :=
  let v := strcmp a b in
  if v =? 0 then 0 else if 0 <? v then -1 else 1.

(** axl_list_equal_string, axl_list.c:426-444, on NUL-free non-empty strings (the
    byte-level function, including its out-of-bounds read on two empty strings,
    is [StrModel.c_list_equal_string]). *)
Definition list_equal_string (a b : bytes) : Z := if bytes_eqb a b then 0 else 1.
