(** Model of src/axl_hash.c: a chained hash table that grows by [step] slots.

    Simplifications (whole file): allocation never fails; [int] is unbounded; a
    NULL hash argument is not modelled; log calls are dropped.  A collision chain
    (singly linked by [next], only changed by pushing at the head, unlinking one
    node and by the rehash that concatenates all chains) is the list of its
    nodes.  A node is identified by [h_id], fresh for every axl_factory_get: that
    live factory blocks never overlap is C13.  Handlers are names of type [F];
    calls to destroy handlers are recorded in [htrace]. *)
From Verif Require Import Prelude Arr.

Section HashModel.
Variables K D F : Type.
Variable hashf : K -> N.               (* hash->hash *)
Variable keq : K -> K -> bool.         (* hash->equal (node key, key) == 0 *)
Variable knull : K -> bool.            (* key == NULL *)
Variable dnull : D -> bool.            (* data == NULL *)
Variable null : D.                     (* the NULL value returned on a miss *)

(** struct _axlHashNode, axl_hash.c:56-67 *)
Record hnode := HNode {
  h_id : nat; h_key : K; h_kd : option F; h_data : D; h_dd : option F }.

(** a call to a destroy handler: which handler, on what *)
Inductive devent := DKey (f : F) (k : K) | DData (f : F) (d : D).

(** struct _axlHash, axl_hash.c:69-90; hash_size is [length table] *)
Record hash := Hash {
  table : list (list hnode); h_items : Z; h_step : nat; h_next : nat; htrace : list devent }.

(** axl_hash_new_full, axl_hash.c:336-362 (axl_hash_new 312-316 passes 10) *)
Definition hash_new_full (step : nat) : hash := Hash [] 0 step 0 [].
Definition hash_new : hash := hash_new_full 10.

(** hash->hash (key) % hash->hash_size *)
Definition slot (size : nat) (k : K) : nat := N.to_nat (N.modulo (hashf k) (N.of_nat size)).

(** __axl_hash_internal_lookup, axl_hash.c:223-253 *)
Fixpoint chain_lookup (c : list hnode) (k : K) : option hnode :=
  match c with
  | [] => None
  | n :: c' => if keq (h_key n) k then Some n else chain_lookup c' k
  end.
Definition hash_lookup (h : hash) (k : K) : res (option hnode) :=
  match table h with
  | [] => Ok None
  | _ => c <- aget (table h) (slot (length (table h)) k) ;; Ok (chain_lookup c k)
  end.

(** __axl_hash_insert_node, axl_hash.c:413-418 (the items counter apart) *)
Definition insert_node (t : list (list hnode)) (n : hnode) : res (list (list hnode)) :=
  let pos := slot (length t) (h_key n) in
  c <- aget t pos ;; aset t pos (n :: c).

(** the rehash loop, axl_hash.c:550-559 *)
Fixpoint insert_nodes (t : list (list hnode)) (l : list hnode) : res (list (list hnode)) :=
  match l with
  | [] => Ok t
  | n :: r => t <- insert_node t n ;; insert_nodes t r
  end.

(** axl_hash.c:495-559: chain all nodes in slot order, enlarge and clear the
    table, insert them again *)
Definition rehash (t : list (list hnode)) (step : nat) : res (list (list hnode)) :=
  insert_nodes (repeat [] (length t + step)) (concat t).

Definition kd_event (n : hnode) : list devent :=
  match h_kd n with Some f => [DKey f (h_key n)] | None => [] end.
Definition dd_event (n : hnode) : list devent :=
  match h_dd n with Some f => [DData f (h_data n)] | None => [] end.

(** axl_hash.c:587-590: overwrite the node found *)
Fixpoint chain_replace (c : list hnode) (k : K) (f : hnode -> hnode) : list hnode :=
  match c with
  | [] => []
  | n :: c' => if keq (h_key n) k then f n :: c' else n :: chain_replace c' k f
  end.

(** axl_hash_insert_full, axl_hash.c:444-595 (axl_hash_insert 385-394 passes NULL
    handlers) *)
Definition hash_insert_full (h : hash) (k : K) (kd : option F) (d : D) (dd : option F) : res hash :=
  match table h with
  | [] =>
    let n := HNode (h_next h) k kd d dd in
    t <- insert_node (repeat [] (h_step h)) n ;;
    Ok (Hash t (h_items h + 1) (h_step h) (S (h_next h)) (htrace h))
  | _ =>
    found <- hash_lookup h k ;;
    match found with
    | None =>
      t <- (if Z.eqb (Z.of_nat (length (table h))) (h_items h)
            then rehash (table h) (h_step h) else Ok (table h)) ;;
      let n := HNode (h_next h) k kd d dd in
      t <- insert_node t n ;;
      Ok (Hash t (h_items h + 1) (h_step h) (S (h_next h)) (htrace h))
    | Some old =>
      let pos := slot (length (table h)) k in
      c <- aget (table h) pos ;;
      t <- aset (table h) pos (chain_replace c k (fun n => HNode (h_id n) k kd d dd)) ;;
      Ok (Hash t (h_items h) (h_step h) (h_next h) (htrace h ++ kd_event old ++ dd_event old))
    end
  end.

(** the unlinking of __axl_hash_remove_common, axl_hash.c:636-652, 696-712 *)
Fixpoint chain_remove (c : list hnode) (k : K) : option (hnode * list hnode) :=
  match c with
  | [] => None
  | n :: c' =>
    if keq (h_key n) k then Some (n, c')
    else match chain_remove c' k with Some (x, r) => Some (x, n :: r) | None => None end
  end.

(** __axl_hash_remove_common, axl_hash.c:604-716: the unlinked node, and the hash *)
Definition hash_unlink (h : hash) (k : K) : res (option hnode * hash) :=
  match table h with
  | [] => Ok (None, h)
  | _ =>
    let pos := slot (length (table h)) k in
    c <- aget (table h) pos ;;
    match chain_remove c k with
    | None => Ok (None, h)
    | Some (n, c') =>
      t <- aset (table h) pos c' ;;
      Ok (Some n, Hash t (h_items h - 1) (h_step h) (h_next h) (htrace h))
    end
  end.
Definition add_trace (h : hash) (l : list devent) : hash :=
  Hash (table h) (h_items h) (h_step h) (h_next h) (htrace h ++ l).

(** axl_hash_remove, axl_hash.c:737-743 (remove = true, defer = false) *)
Definition hash_remove (h : hash) (k : K) : res (hash * bool) :=
  '(o, h) <- hash_unlink h k ;;
  match o with
  | None => Ok (h, false)
  | Some n => Ok (add_trace h (kd_event n ++ dd_event n), true)
  end.

(** axl_hash_delete, axl_hash.c:846-852 (remove = false, defer = false) *)
Definition hash_delete (h : hash) (k : K) : res (hash * bool) :=
  '(o, h) <- hash_unlink h k ;;
  match o with None => Ok (h, false) | Some _ => Ok (h, true) end.

(** axl_hash_remove_deferred, axl_hash.c:790-800 followed by
    axl_hash_deferred_cleanup, 810-824, on what it returned; all four out
    parameters given *)
Definition hash_remove_deferred (h : hash) (k : K) : res (hash * option hnode) :=
  '(o, h) <- hash_unlink h k ;; Ok (h, o).
Definition free_data_events (n : hnode) : list devent :=
  (if knull (h_key n) then [] else kd_event n) ++ (if dnull (h_data n) then [] else dd_event n).
Definition deferred_cleanup (h : hash) (o : option hnode) : hash :=
  match o with None => h | Some n => add_trace h (free_data_events n) end.

(** axl_hash_get, axl_hash.c:866-884 *)
Definition hash_get (h : hash) (k : K) : res D :=
  if Z.eqb (h_items h) 0 then Ok null
  else
    o <- hash_lookup h k ;;
    Ok (match o with Some n => h_data n | None => null end).

(** axl_hash_exists, axl_hash.c:1128-1133 *)
Definition hash_exists (h : hash) (k : K) : res bool :=
  o <- hash_lookup h k ;; Ok (match o with Some _ => true | None => false end).

(** axl_hash_items, axl_hash.c:1323-1329; axl_hash_capacity, 1340-1345 *)
Definition hash_items (h : hash) : Z := h_items h.
Definition hash_capacity (h : hash) : nat := length (table h).

(** __axl_hash_foreach, axl_hash.c:892-962 (and the four wrappers 982-1104).  The
    handler works on a caller state [A] and returns true to stop; it is assumed
    not to modify the hash. *)
Section Foreach.
Variable A : Type.
Variable f : hnode -> A -> A * bool.
Fixpoint chain_foreach (c : list hnode) (acc : A) : A * bool :=
  match c with
  | [] => (acc, false)
  | n :: c' => let '(acc, stop) := f n acc in if stop then (acc, true) else chain_foreach c' acc
  end.
Fixpoint table_foreach (t : list (list hnode)) (acc : A) : A :=
  match t with
  | [] => acc
  | c :: t' => let '(acc, stop) := chain_foreach c acc in if stop then acc else table_foreach t' acc
  end.
Definition hash_foreach (h : hash) (acc : A) : A := table_foreach (table h) acc.
End Foreach.

(** __axl_hash_copy_foreach, axl_hash.c:1138-1176: dereferencing a missing node is
    UB.  key_copy / value_copy are given the whole node (1170-1172). *)
Section Copy.
Variable key_copy : hnode -> K.
Variable value_copy : hnode -> D.
Definition copy_foreach (h : hash) (n : hnode) (acc : res hash) : res hash * bool :=
  (result <- acc ;;
   c <- aget (table h) (slot (length (table h)) (h_key n)) ;;
   node <- of_option (chain_lookup c (h_key n)) ;;
   hash_insert_full result (key_copy node) (h_kd node) (value_copy node) (h_dd node), false).

(** __axl_hash_copy_full_common, axl_hash.c:1178-1241; [replace] is
    replace_destroy_funcs with the two handlers (axl_hash_copy_full 1273-1280),
    [None] for axl_hash_copy 1306-1312 *)
Definition hash_copy (h : hash) (replace : option (option F * option F)) : res hash :=
  let result := hash_new_full (h_step h) in
  match table h with
  | [] => Ok result
  | _ =>
    result <- hash_foreach (res hash) (copy_foreach h) h (Ok result) ;;
    match replace with
    | None => Ok result
    | Some (dk, dd) =>
      Ok (Hash (map (map (fun n => HNode (h_id n) (h_key n) dk (h_data n) dd)) (table result))
               (h_items result) (h_step result) (h_next result) (htrace result))
    end
  end.
End Copy.

(** axl_hash_free, axl_hash.c:1474-1519 with __axl_hash_free_data 1449-1466: the
    destroy calls made *)
Definition hash_free (h : hash) : list devent :=
  htrace h ++ flat_map free_data_events (concat (table h)).

(** struct _axlHashCursor, axl_hash.c:95-105 *)
Record hcursor := HCursor { hc_index : nat; hc_node : option nat }.

(** the node a pointer designates; a pointer to a node no longer in the table
    (released to the factory) designates nothing *)
Fixpoint chain_at (c : list hnode) (id : nat) : option (list hnode) :=
  match c with
  | [] => None
  | n :: c' => if Nat.eqb (h_id n) id then Some c else chain_at c' id
  end.
Fixpoint table_at (t : list (list hnode)) (id : nat) : option (list hnode) :=
  match t with
  | [] => None
  | c :: t' => match chain_at c id with Some s => Some s | None => table_at t' id end
  end.
Definition deref (h : hash) (id : nat) : res (hnode * option nat) :=
  match table_at (table h) id with
  | Some (n :: r) => Ok (n, option_map h_id (hd_error r))
  | _ => UB
  end.

(** first occupied slot at or after [i] among the slots [t]: the scanning loops
    axl_hash.c:1556-1567, 1756-1767, 1855-1865 *)
Fixpoint scan (t : list (list hnode)) (i : nat) : nat * option nat :=
  match t with
  | [] => (i, None)
  | c :: t' => match c with n :: _ => (i, Some (h_id n)) | [] => scan t' (S i) end
  end.

(** __axl_hash_cursor_init first = true, axl_hash.c:1551-1567, 1591-1593: when no
    slot is occupied [cursor->node] keeps its previous value *)
Definition cursor_first (h : hash) (c : hcursor) : hcursor :=
  match scan (table h) 0 with
  | (i, Some a) => HCursor i (Some a)
  | (_, None) => HCursor 0 (hc_node c)
  end.
(** axl_hash_cursor_new, axl_hash.c:1658-1678 *)
Definition cursor_new (h : hash) : hcursor := cursor_first h (HCursor 0 None).

(** __axl_hash_cursor_init first = false, axl_hash.c:1568-1593: the loop stops
    before slot 0 *)
Fixpoint scan_back (t : list (list hnode)) (i : nat) : res (nat * option nat) :=
  match i with
  | O => Ok (0, None)
  | S i' =>
    c <- aget t i ;;
    match rev c with
    | n :: _ => Ok (i, Some (h_id n))
    | [] => scan_back t i'
    end
  end.
Definition cursor_last (h : hash) : res hcursor :=
  '(i, o) <- scan_back (table h) (length (table h) - 1) ;; Ok (HCursor i o).

(** axl_hash_cursor_next, axl_hash.c:1721-1771 *)
Definition cursor_next (h : hash) (c : hcursor) : res hcursor :=
  match hc_node c with
  | None => Ok c
  | Some a =>
    '(n, nx) <- deref h a ;;
    match nx with
    | Some b => Ok (HCursor (hc_index c) (Some b))
    | None =>
      let '(i, o) := scan (skipn (S (hc_index c)) (table h)) (S (hc_index c)) in
      Ok (HCursor i o)
    end
  end.

(** axl_hash_cursor_has_next, axl_hash.c:1783-1806 *)
Definition cursor_has_next (h : hash) (c : hcursor) : res bool :=
  nx <- (match hc_node c with None => Ok None | Some a => '(_, nx) <- deref h a ;; Ok nx end) ;;
  match nx with
  | Some _ => Ok true
  | None => Ok (match snd (scan (skipn (S (hc_index c)) (table h)) 0) with Some _ => true | None => false end)
  end.

(** axl_hash_cursor_has_item, axl_hash.c:1817-1823 *)
Definition cursor_has_item (c : hcursor) : bool :=
  match hc_node c with Some _ => true | None => false end.

(** axl_hash_cursor_remove, axl_hash.c:1836-1869: when the removed node was the
    last of its chain, the scan restarts at the current slot *)
Definition cursor_remove (h : hash) (c : hcursor) : res (hash * hcursor) :=
  match hc_node c with
  | None => Ok (h, c)
  | Some a =>
    '(n, nx) <- deref h a ;;
    '(h, _) <- hash_remove h (h_key n) ;;
    match nx with
    | Some b => Ok (h, HCursor (hc_index c) (Some b))
    | None =>
      let '(i, o) := scan (skipn (hc_index c) (table h)) (hc_index c) in
      Ok (h, HCursor i o)
    end
  end.

(** axl_hash_cursor_get_key / _get_value, axl_hash.c:1877-1905, on a cursor that
    has an item *)
Definition cursor_get (h : hash) (c : hcursor) : res (option (K * D)) :=
  match hc_node c with
  | None => Ok None
  | Some a => '(n, _) <- deref h a ;; Ok (Some (h_key n, h_data n))
  end.
End HashModel.

(** axl_hash_equal_int, axl_hash.c:206-211 and axl_hash_int 190-195 *)
Definition int_keq (a b : Z) : bool := Z.eqb a b.
Definition int_hash (a : Z) : N := Z.to_N (a mod 4294967296).

(** axl_hash_equal_string, axl_hash.c:151-179, as the test [== 0] the table uses;
    [None] is the NULL pointer *)
Fixpoint str_differs (a b : bytes) : bool :=
  match a, b with
  | x :: a', y :: b' => if Ascii.eqb x y then str_differs a' b' else true
  | [], [] => false
  | _, _ => true
  end.
Definition equal_string (a b : option bytes) : Z :=
  match a, b with
  | None, None => 1
  | None, Some _ => 0
  | Some _, None => 0
  | Some x, Some y => if str_differs x y then 1 else 0
  end.
Definition str_keq (a b : option bytes) : bool := Z.eqb (equal_string a b) 0.

(** int arithmetic of axl_hash_string: wrap to 32 bits, signed *)
Definition wrap32 (z : Z) : Z :=
  let m := (z mod 4294967296)%Z in if (m <? 2147483648)%Z then m else (m - 4294967296)%Z.
Definition schar (c : ascii) : Z :=
  let n := Z.of_N (N_of_ascii c) in if (n <? 128)%Z then n else (n - 256)%Z.
(** axl_hash_string, axl_hash.c:114-137 *)
Fixpoint hash_string_loop (s : bytes) (h : Z) : Z :=
  match s with
  | [] => h
  | c :: r =>
    let h := wrap32 (wrap32 (h * 16) + schar c) in
    let g := wrap32 (Z.land h 4026531840) in
    let h := if Z.eqb g 0 then h else Z.lxor (Z.lxor h (Z.shiftr g 24)) g in
    hash_string_loop r h
  end.
Definition hash_string (s : option bytes) : N :=
  match s with
  | None => 0%N
  | Some b => Z.to_N (hash_string_loop b 0 mod 4294967296)
  end.
