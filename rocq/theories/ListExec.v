(** Driving the list model with a history of API calls (see ListSpec.op). *)
From Verif Require Import Prelude ListModel ListSpec.

Section ListExec.
Variable D : Type.
Variable null : D.
Variable deqb : D -> D -> bool.
Variable cmp : D -> D -> Z.
Variable has_destroy : bool.

Definition lift {A} (s : lst D) (r : res A) (f : A -> answer D) : res (lst D * answer D) :=
  a <- r ;; Ok (s, f a).
Definition unit_ (r : res (lst D)) : res (lst D * answer D) :=
  s <- r ;; Ok (s, AUnit).

(** dispatch only: each line calls the function of the same name *)
Definition exec (s : lst D) (o : op D) : res (lst D * answer D) :=
  match o with
  | OAppend x => unit_ (list_append D null s x)
  | OPrepend x => unit_ (list_prepend D null s x)
  | OAddAt x p => unit_ (list_add_at D null s x p)
  | OAdd x => unit_ (list_add D null cmp s x)
  | ORemove x also => unit_ (list_remove D cmp has_destroy s x also)
  | ORemovePtr x also => unit_ (list_remove_ptr D deqb has_destroy s x also)
  | ORemoveAt p also => unit_ (list_remove_at D has_destroy s p also)
  | ORemoveFirst also => unit_ (list_remove_first D has_destroy s also)
  | ORemoveLast also => unit_ (list_remove_last D has_destroy s also)
  | OGetNth p => lift s (list_get_nth D null s p) AData
  | OGetFirst => lift s (list_get_first D null s) AData
  | OGetLast => lift s (list_get_last D null s) AData
  | OLength => Ok (s, AInt (list_length D s))
  | OIsEmpty => Ok (s, ABool (list_is_empty D s))
  | OExistsAt x p => lift s (list_exists_at D cmp s x p) ABool
  | OLookup f => lift s (list_lookup D null s f) AData
  | OExists x => lift s (list_exists D null deqb cmp s x) ABool
  end.

Fixpoint run (s : lst D) (ops : list (op D)) : res (lst D * list (answer D)) :=
  match ops with
  | [] => Ok (s, [])
  | o :: r =>
    '(s1, a) <- exec s o ;;
    '(s2, l) <- run s1 r ;;
    Ok (s2, a :: l)
  end.

(** addresses of the cells reachable from [first_node] through [next] *)
Fixpoint chain (fuel : nat) (s : lst D) (node : option nat) : list (nat * D) :=
  match fuel, node with
  | S fuel', Some a =>
    match heap D s a with
    | Some c => (a, c_data D c) :: chain fuel' s (c_next D c)
    | None => []
    end
  | _, _ => []
  end.
Definition linked (s : lst D) : list nat :=
  map fst (chain (length (pool D s)) s (first D s)).
Definition contents (s : lst D) : list D :=
  map snd (chain (length (pool D s)) s (first D s)).
(** the cells currently in the spare pool *)
Definition spares (s : lst D) : list (option nat) := firstn (avail D s) (pool D s).

End ListExec.

(** the idiomatic enumeration loop: cursor_first; while has_item { get; next } *)
Fixpoint cursor_walk {D} (null : D) (fuel : nat) (s : lst D) (cur : option nat) : res (list D) :=
  match fuel with
  | O => NoFuel
  | S fuel' =>
    if cursor_has_item cur then
      d <- cursor_get D null s cur ;;
      cur <- cursor_next D s cur ;;
      r <- cursor_walk null fuel' s cur ;;
      Ok (d :: r)
    else Ok []
  end.

(** the idiomatic filtering loop: while has_item { get; if drop then
    cursor_remove/unlink else cursor_next } *)
Fixpoint cursor_filter {D} (null : D) (hd : bool) (also : bool) (drop : D -> bool)
         (fuel : nat) (s : lst D) (cur : option nat) : res (lst D) :=
  match fuel with
  | O => NoFuel
  | S fuel' =>
    if cursor_has_item cur then
      d <- cursor_get D null s cur ;;
      if drop d then
        '(s, cur) <- cursor_remove D hd s cur also ;;
        cursor_filter null hd also drop fuel' s cur
      else
        cur <- cursor_next D s cur ;;
        cursor_filter null hd also drop fuel' s cur
    else Ok s
  end.

(** cursor_last; while has_item { get; previous } *)
Fixpoint cursor_walk_back {D} (null : D) (fuel : nat) (s : lst D) (cur : option nat) : res (list D) :=
  match fuel with
  | O => NoFuel
  | S fuel' =>
    if cursor_has_item cur then
      d <- cursor_get D null s cur ;;
      cur <- cursor_previous D s cur ;;
      r <- cursor_walk_back null fuel' s cur ;;
      Ok (d :: r)
    else Ok []
  end.
