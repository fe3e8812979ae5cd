(** Looking for elements: axl_node_get_child_called and its relatives of src/axl_node.c,
    axl_doc_get and axl_doc_iterate of src/axl_doc.c, on the links of ItemModel.

    Simplifications: the name of a node is a function of the node; axl_cmp (C14) is
    [bytes_eqb]; the lists returned or kept by the functions are Coq lists: axl_list_add with
    __axl_node_equal (axl_node.c:345, always 1) appends and axl_list_add_at inserts (C01);
    an iteration handler may look at its arguments, decide from all the calls it has had so
    far, and remove the node it is called for (axl_node_remove without dealloc). *)
From Verif Require Import Prelude ItemModel StrModel.
Open Scope nat_scope.
Open Scope list_scope.

Section Find.
Variable name : nat -> bytes.

(** the loops over the items of a node that look at the elements only *)
(** axl_node_have_childs, axl_node.c:3612-3632 *)
Definition have_childs (h : heap) (p : nat) : res bool :=
  r <- node_first_child h p ;; Ok (match r with Some _ => true | None => false end).
(** axl_node_get_child_called, axl_node.c:3683-3716 *)
Fixpoint called_loop (fuel : nat) (h : heap) (x : bytes) (i : option nat) : res (option nat) :=
  match i with
  | None => Ok None
  | Some i =>
    match fuel with
    | O => NoFuel
    | S fuel =>
      it <- rd_i h i ;;
      if is_node (i_kind it) && bytes_eqb (name (i_data it)) x then Ok (Some (i_data it)) else called_loop fuel h x (i_next it)
    end
  end.
Definition get_child_called (h : heap) (p : nat) (x : bytes) : res (option nat) := n <- rd_n h p ;; called_loop (h_ifresh h) h x (n_first n).
(** axl_node_get_child_nth, axl_node.c:3792-3826 *)
Fixpoint nth_loop (fuel : nat) (h : heap) (position iterator : Z) (i : option nat) : res (option nat) :=
  match i with
  | None => Ok None
  | Some i =>
    match fuel with
    | O => NoFuel
    | S fuel =>
      it <- rd_i h i ;;
      if is_node (i_kind it) then
        if (iterator =? position)%Z then Ok (Some (i_data it)) else nth_loop fuel h position (iterator + 1)%Z (i_next it)
      else nth_loop fuel h position iterator (i_next it)
    end
  end.
Definition get_child_nth (h : heap) (p : nat) (position : Z) : res (option nat) := n <- rd_n h p ;; nth_loop (h_ifresh h) h position 0 (n_first n).
(** axl_node_get_child_num, axl_node.c:3836-3862 *)
Fixpoint num_loop (fuel : nat) (h : heap) (count : nat) (i : option nat) : res nat :=
  match i with
  | None => Ok count
  | Some i => match fuel with O => NoFuel | S fuel => it <- rd_i h i ;; num_loop fuel h (if is_node (i_kind it) then S count else count) (i_next it) end
  end.
Definition get_child_num (h : heap) (p : nat) : res nat := n <- rd_n h p ;; num_loop (h_ifresh h) h 0 (n_first n).
(** axl_node_get_childs, axl_node.c:3895-3922 *)
Fixpoint childs_loop (fuel : nat) (h : heap) (result : list nat) (i : option nat) : res (list nat) :=
  match i with
  | None => Ok result
  | Some i => match fuel with O => NoFuel | S fuel => it <- rd_i h i ;; childs_loop fuel h (if is_node (i_kind it) then result ++ [i_data it] else result) (i_next it) end
  end.
Definition get_childs (h : heap) (p : nat) : res (list nat) := n <- rd_n h p ;; childs_loop (h_ifresh h) h [] (n_first n).

(** the loop of axl_node_get_next_called (axl_node.c:2401-2411),
    axl_node_get_previous_called (2476-2486) and axl_node_find_called (3754-3761) *)
Fixpoint name_loop (fuel : nat) (h : heap) (dir : heap -> nat -> res (option nat)) (x : bytes) (n : option nat) : res (option nat) :=
  match n with
  | None => Ok None
  | Some n =>
    match fuel with
    | O => NoFuel
    | S fuel => if bytes_eqb (name n) x then Ok (Some n) else n <- dir h n ;; name_loop fuel h dir x n
    end
  end.
(** axl_node_get_next_called, axl_node.c:2392-2412 *)
Definition get_next_called (h : heap) (n : nat) (x : bytes) : res (option nat) := n <- node_get_next h n ;; name_loop (h_ifresh h) h node_get_next x n.
(** axl_node_get_previous_called, axl_node.c:2466-2488 *)
Definition get_previous_called (h : heap) (n : nat) (x : bytes) : res (option nat) := n <- node_get_previous h n ;; name_loop (h_ifresh h) h node_get_previous x n.

(** axl_node_find_called, axl_node.c:3747-3779: the second loop, with the recursive call *)
Fixpoint find_loop (fuel : nat) (rec : nat -> res (option nat)) (h : heap) (n : option nat) : res (option nat) :=
  match n with
  | None => Ok None
  | Some n =>
    match fuel with
    | O => NoFuel
    | S fuel =>
      r <- rec n ;;
      match r with Some c => Ok (Some c) | None => n <- node_get_next h n ;; find_loop fuel rec h n end
    end
  end.
Fixpoint find_called (fuel : nat) (h : heap) (x : bytes) (p : nat) : res (option nat) :=
  match fuel with
  | O => NoFuel
  | S fuel =>
    n <- node_first_child h p ;;
    r <- name_loop (h_ifresh h) h node_get_next x n ;;
    match r with
    | Some n => Ok (Some n)
    | None => n <- node_first_child h p ;; find_loop (h_ifresh h) (find_called fuel h x) h n
    end
  end.

(** axl_doc_get_list and axl_doc_get, axl_doc.c:2320-2393 and 2418-2441 *)
Definition slash : bytes := s2b "/".
Definition star : bytes := s2b "*".
(** the loop, axl_doc.c:2352-2380; [total] is the number of strings, [iterator] the
    position of the first of [paths] *)
Fixpoint path_loop (h : heap) (paths : list bytes) (total iterator : nat) (node : nat) : res (option nat) :=
  match paths with
  | [] => Ok (Some node)
  | x :: paths =>
    if Nat.eqb (length x) 0 then Ok (Some node)
    else if bytes_eqb x star && negb (Nat.eqb total (iterator + 1)) then Ok None
    else
      n <- get_child_called h node x ;;
      match n with
      | None => Ok None
      | Some n => path_loop h paths total (iterator + 1) n
      end
  end.
Definition doc_get (h : heap) (root : nat) (path_to : bytes) : res (option nat) :=
  c <- rd path_to 0 ;;
  if negb (Ascii.eqb c "/"%char) then Ok None
  else
    a <- stream_split path_to [slash ++ [NUL]] ;;
    paths <- strv a ;;
    match paths with
    | _ :: first :: rest =>
      if negb (Nat.eqb (length first) 0) && negb (bytes_eqb (name root) first) then Ok None
      else path_loop h rest (length paths) 2 root
    | _ => UB
    end.

(** ** Iteration *)
Inductive mode := Deep | Wide.
(** what the handler answers: whether to go on, and *was_removed *)
Record verdict := Verdict { v_go : bool; v_removed : bool }.
(** the calls a handler has had: node and parent *)
Definition calls := list (nat * option nat).
Variable decide : calls -> verdict.

(** one call of the handler *)
Definition notify (h : heap) (seen : calls) (n : nat) (p : option nat) : res (heap * calls * verdict) :=
  let seen := seen ++ [(n, p)] in
  let v := decide seen in
  h <- (if v_removed v then node_remove h n else Ok h) ;;
  Ok (h, seen, v).
(** axl_doc.c:3036-3055 *)
Fixpoint add_loop (fuel : nat) (h : heap) (m : mode) (pending : list nat) (iterator : nat) (n : option nat) : res (list nat) :=
  match n with
  | None => Ok pending
  | Some n =>
    match fuel with
    | O => NoFuel
    | S fuel =>
      nx <- node_get_next h n ;;
      match m with
      | Deep => add_loop fuel h m (firstn iterator pending ++ [n] ++ skipn iterator pending) (S iterator) nx
      | Wide => add_loop fuel h m (pending ++ [n]) iterator nx
      end
    end
  end.
(** axl_doc.c:3002-3059 *)
Fixpoint iter_loop (fuel : nat) (h : heap) (m : mode) (pending : list nat) (seen : calls) : res (heap * calls * bool) :=
  match pending with
  | [] => Ok (h, seen, true)
  | n :: pending =>
    match fuel with
    | O => NoFuel
    | S fuel =>
      p <- node_get_parent h n ;;
      ' (h, seen, v) <- notify h seen n p ;;
      if negb (v_go v) then Ok (h, seen, false)
      else if v_removed v then iter_loop fuel h m pending seen
      else
        b <- have_childs h n ;;
        pending <- (if b : bool then c <- node_first_child h n ;; add_loop (h_ifresh h) h m pending 0 c else Ok pending) ;;
        iter_loop fuel h m pending seen
    end
  end.
(** __axl_doc_iterate_common, axl_doc.c:2962-3066 *)
Definition iterate (fuel : nat) (h : heap) (root : nat) (m : mode) : res (heap * calls * bool) :=
  ' (h, seen, v) <- notify h [] root None ;;
  if negb (v_go v) then Ok (h, seen, false)
  else if v_removed v then Ok (h, seen, false)
  else pending <- get_childs h root ;; iter_loop fuel h m pending seen.
End Find.
