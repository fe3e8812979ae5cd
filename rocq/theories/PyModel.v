(** The Python objects axl.Doc, axl.Node and axl.AttrCursor of py-axl/: what they refer to, what
    they release when they are collected, and what the calls of a program do with them.

    Simplifications: of the library only the tree of the nodes, the document an item mentions
    and which nodes and documents are allocated are kept (the blocks of memory behind a node are
    OwnModel, the links ItemModel); the memory of an item is that of its node; names are left
    out, so that the functions that search by name are given the position of what they find; a
    search reads the node it starts at and the one it finds; contents and attributes are
    memory of their node; failing conversions of arguments, objects of other types, axl.Node ()
    without a name, replace, deattach and set_empty are left out; a node that is put at a second
    place while it is still at its first one is [UB] (the library would let it hang from both). *)
From Verif Require Import Prelude.
Open Scope nat_scope.

(** a node: its address, the document its item mentions, its childs *)
Inductive tree := T (a : nat) (doc : option nat) (kids : list tree).
Definition t_addr (t : tree) : nat := match t with T a _ _ => a end.
Definition t_doc (t : tree) : option nat := match t with T _ d _ => d end.
Definition t_kids (t : tree) : list tree := match t with T _ _ k => k end.
Fixpoint addrs (t : tree) : list nat := match t with T a _ kids => a :: flat_map addrs kids end.
Definition has_addr (a : nat) (t : tree) : bool := existsb (Nat.eqb a) (addrs t).

Definition first_some {A B} (f : A -> option B) : list A -> option B :=
  fix go (l : list A) : option B :=
  match l with [] => None | x :: r => match f x with Some y => Some y | None => go r end end.
(** the tree below address [a] *)
Fixpoint sub (a : nat) (t : tree) : option tree :=
  match t with T b d kids => if Nat.eqb a b then Some t else first_some (sub a) kids end.
(** the parent of the node at [a] *)
Fixpoint par (a : nat) (t : tree) : option tree :=
  match t with
  | T b d kids => if existsb (fun k => Nat.eqb a (t_addr k)) kids then Some t else first_some (par a) kids
  end.

(** axl.Doc: its document, finish_on_gc (py_axl_doc.c:42-51); axl.Node: its node, finish_on_gc, the
    object of the document (py_axl_node.c:42-53); axl.AttrCursor: its node, which the cursor of
    the library refers to (py_axl_attr_cursor.c:42-49), as a node without document object *)
Inductive body := BDoc (d : nat) (fin : bool) | BNode (a : option nat) (fin : bool) (py_doc : option nat).
(** an object, with its ob_refcnt *)
Record obj := Obj { o_refs : nat; o_body : body }.
(** the trees, each with the document whose root it is; the nodes and the documents allocated; the
    objects; the references that the program has; the next address of anything *)
Record world := World { w_trees : list (tree * option nat); w_live : list nat; w_docs : list nat;
                        w_objs : list (nat * obj); w_held : list nat; w_next : nat }.
Definition world0 : world := World [] [] [] [] [] 0.

Definition w_trees_ t w := World t (w_live w) (w_docs w) (w_objs w) (w_held w) (w_next w).
Definition w_live_ l w := World (w_trees w) l (w_docs w) (w_objs w) (w_held w) (w_next w).
Definition w_docs_ d w := World (w_trees w) (w_live w) d (w_objs w) (w_held w) (w_next w).
Definition w_objs_ o w := World (w_trees w) (w_live w) (w_docs w) o (w_held w) (w_next w).
Definition w_held_ h w := World (w_trees w) (w_live w) (w_docs w) (w_objs w) h (w_next w).

Definition mem_nat (a : nat) (l : list nat) : bool := existsb (Nat.eqb a) l.
(** reading a node, a document *)
Definition rd (a : nat) (w : world) : res unit := if mem_nat a (w_live w) then Ok tt else UB.
Definition rd_doc (d : nat) (w : world) : res unit := if mem_nat d (w_docs w) then Ok tt else UB.
(** free of each of some nodes *)
Fixpoint release (l live : list nat) : res (list nat) :=
  match l with
  | [] => Ok live
  | a :: r => if mem_nat a live then release r (filter (fun x => negb (Nat.eqb a x)) live) else UB
  end.

Definition look (o : nat) (l : list (nat * obj)) : option obj :=
  option_map snd (find (fun x => Nat.eqb o (fst x)) l).
Definition put (o : nat) (x : obj) (l : list (nat * obj)) : list (nat * obj) :=
  map (fun y => if Nat.eqb o (fst y) then (o, x) else y) l.
Definition del (o : nat) (l : list (nat * obj)) : list (nat * obj) :=
  filter (fun y => negb (Nat.eqb o (fst y))) l.
(** a new object, its reference given to the program: tp_alloc sets ob_refcnt to 1 *)
Definition make (b : body) (w : world) : world :=
  World (w_trees w) (w_live w) (w_docs w) (w_objs w ++ [(w_next w, Obj 1 b)]) (w_next w :: w_held w) (S (w_next w)).
(** Py_INCREF *)
Definition incref (o : nat) (w : world) : world :=
  match look o (w_objs w) with
  | Some (Obj r b) => w_objs_ (put o (Obj (S r) b) (w_objs w)) w
  | None => w
  end.

(** the tree in which a node is *)
Definition where_ (a : nat) (w : world) : option (tree * option nat) :=
  find (fun x => has_addr a (fst x)) (w_trees w).
Definition sub_of (a : nat) (w : world) : option tree :=
  match where_ a w with Some (t, _) => sub a t | None => None end.
(** axl_node_get_doc, axl_node.c:972-978 *)
Definition get_doc (a : nat) (w : world) : res (option nat) :=
  _ <- rd a w ;; match sub_of a w with Some t => Ok (t_doc t) | None => UB end.
Definition is_loose_root (a : nat) (x : tree * option nat) : bool :=
  match snd x with None => Nat.eqb a (t_addr (fst x)) | Some _ => false end.
Definition is_root_of (d : nat) (x : tree * option nat) : bool :=
  match snd x with Some e => Nat.eqb d e | None => false end.

(** axl_node_free, axl_node.c:5455-5478: the node and all below it; a node that still hangs
    from another one hangs there afterwards as well *)
Definition node_free (a : nat) (w : world) : res world :=
  match sub_of a w with
  | Some t =>
    live <- release (addrs t) (w_live w) ;;
    Ok (w_live_ live (w_trees_ (filter (fun x => negb (is_loose_root a x)) (w_trees w)) w))
  | None => UB
  end.
(** axl_doc_free, axl_doc.c:3264-3316 *)
Definition doc_free (d : nat) (w : world) : res world :=
  _ <- rd_doc d w ;;
  live <- release (flat_map (fun x => addrs (fst x)) (filter (is_root_of d) (w_trees w))) (w_live w) ;;
  Ok (w_docs_ (filter (fun x => negb (Nat.eqb d x)) (w_docs w))
     (w_live_ live (w_trees_ (filter (fun x => negb (is_root_of d x)) (w_trees w)) w))).

(** py_axl_doc_dealloc, py_axl_doc.c:92-103 *)
Definition doc_dealloc (o : nat) (d : nat) (fin : bool) (w : world) : res world :=
  w <- (if fin then doc_free d w else Ok w) ;;
  Ok (w_objs_ (del o (w_objs w)) w).
(** Py_DECREF of the object of a document *)
Definition doc_decref (o : nat) (w : world) : res world :=
  match look o (w_objs w) with
  | Some (Obj r (BDoc d fin)) =>
    if r <=? 1 then doc_dealloc o d fin w
    else Ok (w_objs_ (put o (Obj (r - 1) (BDoc d fin)) (w_objs w)) w)
  | _ => UB
  end.
(** py_axl_node_dealloc, py_axl_node.c:89-115 *)
Definition node_dealloc (o : nat) (a : option nat) (fin : bool) (py_doc : option nat) (w : world) : res world :=
  w <- match a with
       | Some a =>
         if fin then
           d <- get_doc a w ;;
           match d with None => node_free a w | Some _ => Ok w end
         else Ok w
       | None => Ok w
       end ;;
  w <- match py_doc with Some q => doc_decref q w | None => Ok w end ;;
  Ok (w_objs_ (del o (w_objs w)) w).
(** Py_DECREF *)
Definition decref (o : nat) (w : world) : res world :=
  match look o (w_objs w) with
  | Some (Obj r (BDoc d fin)) => doc_decref o w
  | Some (Obj r (BNode a fin q)) =>
    if r <=? 1 then node_dealloc o a fin q w
    else Ok (w_objs_ (put o (Obj (r - 1) (BNode a fin q)) (w_objs w)) w)
  | None => UB
  end.

(** py_axl_node_create, py_axl_node.c:693-721 *)
Definition node_create (a : nat) (q : option nat) (w : world) : world :=
  let w := make (BNode (Some a) false q) w in
  match q with Some q => incref q w | None => w end.

(** where a search ends: the k-th child (first_child, nth_child, child_called), the k-th sibling
    behind or before (next, next_called, previous, previous_called), the parent, the k-th node
    below in the order of the document (find_called, axl_doc_get) *)
Inductive nav := Child (k : nat) | After (k : nat) | Before (k : nat) | Parent | Below (k : nat).
Fixpoint index (a : nat) (l : list tree) : nat :=
  match l with [] => 0 | t :: r => if Nat.eqb a (t_addr t) then 0 else S (index a r) end.
Definition siblings (a : nat) (t : tree) : list tree := match par a t with Some p => t_kids p | None => [] end.
Definition walk (v : nav) (a : nat) (t : tree) : option nat :=
  match v with
  | Child k => match sub a t with Some s => option_map t_addr (nth_error (t_kids s) k) | None => None end
  | After k => option_map t_addr (nth_error (siblings a t) (S (index a (siblings a t)) + k))
  | Before k => if k <? index a (siblings a t) then option_map t_addr (nth_error (siblings a t) (index a (siblings a t) - S k)) else None
  | Parent => option_map t_addr (par a t)
  | Below k => match sub a t with Some s => nth_error (flat_map addrs (t_kids s)) k | None => None end
  end.
(** the address found from the node at [a] *)
Definition seek (v : nav) (a : nat) (w : world) : res (option nat) :=
  _ <- rd a w ;;
  match where_ a w with
  | Some (t, _) =>
    match walk v a t with
    | Some b => _ <- rd b w ;; Ok (Some b)
    | None => Ok None
    end
  | None => UB
  end.

(** a tree as the parser makes it, in memory from address [n] on, for document [d] *)
Inductive shape := S_ (kids : list shape).
Fixpoint plant (d : option nat) (x : shape) (n : nat) : tree * nat :=
  match x with
  | S_ l =>
    let '(kids, m) :=
      (fix go (l : list shape) (m : nat) : list tree * nat :=
         match l with
         | [] => ([], m)
         | y :: r => let '(t, m) := plant d y m in let '(ts, m) := go r m in (t :: ts, m)
         end) l (S n) in
    (T n d kids, m)
  end.

Definition set_doc (d : option nat) (t : tree) : tree := match t with T a _ kids => T a d kids end.
(** axl_node_set_child, axl_node.c:3377-3388, 6295-6370: [c] becomes the last child of the node at [a] *)
Fixpoint graft (a : nat) (c : tree) (t : tree) : tree :=
  match t with
  | T b d kids => T b d (if Nat.eqb a b then map (graft a c) kids ++ [set_doc d c] else map (graft a c) kids)
  end.
(** axl_node_set_child_after, axl_node.c:3401-3408, 6383-6407: [c] follows the node at [a] *)
Fixpoint follow (a : nat) (c : tree) (t : tree) : tree :=
  match t with
  | T b d kids => T b d (flat_map (fun k => follow a c k :: (if Nat.eqb a (t_addr k) then [set_doc d c] else [])) kids)
  end.
(** axl_node_remove, axl_node.c:3492-3539: without the node at [a] *)
Fixpoint cut (a : nat) (t : tree) : tree :=
  match t with
  | T b d kids => T b d (flat_map (fun k => if Nat.eqb a (t_addr k) then [] else [cut a k]) kids)
  end.
Definition on_trees (f : tree -> tree) (w : world) : world :=
  w_trees_ (map (fun x => (f (fst x), snd x)) (w_trees w)) w.
(** take the loose tree with root [b] out *)
Definition pick (b : nat) (w : world) : option (tree * world) :=
  match find (is_loose_root b) (w_trees w) with
  | Some (t, _) => Some (t, w_trees_ (filter (fun x => negb (is_loose_root b x)) (w_trees w)) w)
  | None => None
  end.

(** what a program does *)
Inductive action :=
| ANode                            (* axl.Node (name) *)
| ADoc                             (* axl.Doc () *)
| AParse (x : shape)               (* axl.parse, axl.file_parse, on a text that is read *)
| ARoot (o : nat)                  (* doc.root *)
| ADocGet (o k : nat)              (* doc.get *)
| AGo (o : nat) (v : nav)          (* node.first_child, node.next, ... *)
| ADocOf (o : nat)                 (* node.doc *)
| ACursor (o : nat)                (* node.attr_cursor_new () *)
| ARead (o : nat)                  (* name, content, attr, has_attr, str, dump, content = ... *)
| ASetRoot (o n : nat)             (* doc.root = node *)
| ASetChild (o c : nat)            (* node.set_child (child) *)
| ASetAfter (o c : nat)            (* node.set_child_after (child) *)
| ARemove (o : nat) (dealloc : bool)
| ADup (o : nat)                   (* another reference to an object *)
| ADrop (o : nat).                 (* a reference given up *)

Definition doc_obj (o : nat) (w : world) : option (nat * bool) :=
  match look o (w_objs w) with Some (Obj _ (BDoc d fin)) => Some (d, fin) | _ => None end.
Definition node_obj (o : nat) (w : world) : option (option nat * bool * option nat) :=
  match look o (w_objs w) with Some (Obj _ (BNode a fin q)) => Some (a, fin, q) | _ => None end.
Definition set_fin (o : nat) (w : world) : world :=
  match look o (w_objs w) with
  | Some (Obj r (BNode a _ q)) => w_objs_ (put o (Obj r (BNode a false q)) (w_objs w)) w
  | _ => w
  end.
Definition set_null (o : nat) (w : world) : world :=
  match look o (w_objs w) with
  | Some (Obj r (BNode _ fin q)) => w_objs_ (put o (Obj r (BNode None fin q)) (w_objs w)) w
  | _ => w
  end.
(** axl_doc_get_root, axl_doc.c:2233-2239 *)
Definition root_addr (d : nat) (w : world) : option nat :=
  option_map (fun x => t_addr (fst x)) (find (is_root_of d) (w_trees w)).
Fixpoint del_one (o : nat) (l : list nat) : list nat :=
  match l with [] => [] | x :: r => if Nat.eqb o x then r else x :: del_one o r end.
(** finish_on_gc of a node that was put below another one, py_axl_node.c:459-460, 489-490 *)
Definition hand_over (d : option nat) (fin : bool) (c : nat) (w : world) : world :=
  match d, fin with None, false => w | _, _ => set_fin c w end.

(** one action; a program can only use the references it has *)
Definition act (c : action) (w : world) : res world :=
  match c with
  (** py_axl_node_new, py_axl_node.c:64-83 *)
  | ANode =>
    let a := w_next w in
    Ok (make (BNode (Some a) true None)
         (World (w_trees w ++ [(T a None [], None)]) (a :: w_live w) (w_docs w) (w_objs w) (w_held w) (S a)))
  (** py_axl_doc_new, py_axl_doc.c:62-86 *)
  | ADoc =>
    let d := w_next w in
    Ok (make (BDoc d true) (World (w_trees w) (w_live w) (d :: w_docs w) (w_objs w) (w_held w) (S d)))
  (** py_axl_doc_parse, py_axl.c:44-82, py_axl_doc_create, py_axl_doc.c:415-439 *)
  | AParse x =>
    let d := w_next w in
    let '(t, n) := plant (Some d) x (S d) in
    Ok (make (BDoc d true) (World (w_trees w ++ [(t, Some d)]) (addrs t ++ w_live w) (d :: w_docs w) (w_objs w) (w_held w) n))
  (** py_axl_doc_get_attr, py_axl_doc.c:126-138 *)
  | ARoot o =>
    if mem_nat o (w_held w) then
      match doc_obj o w with
      | Some (d, _) =>
        _ <- rd_doc d w ;;
        Ok (match root_addr d w with Some a => node_create a (Some o) w | None => w end)
      | None => Ok w
      end
    else Ok w
  (** py_axl_doc_get_node, py_axl_doc.c:178-197; [k] = 0: the root *)
  | ADocGet o k =>
    if mem_nat o (w_held w) then
      match doc_obj o w with
      | Some (d, _) =>
        _ <- rd_doc d w ;;
        match find (is_root_of d) (w_trees w) with
        | Some (t, _) =>
          match nth_error (addrs t) k with
          | Some a => _ <- rd a w ;; Ok (node_create a (Some o) w)
          | None => Ok w
          end
        | None => Ok w
        end
      | None => Ok w
      end
    else Ok w
  (** py_axl_node_get_attr, py_axl_node.c:136-173, and the methods at 235-338 *)
  | AGo o v =>
    if mem_nat o (w_held w) then
      match node_obj o w with
      | Some (Some a, _, q) =>
        b <- seek v a w ;;
        Ok (match b with Some b => node_create b q w | None => w end)
      | _ => Ok w
      end
    else Ok w
  (** py_axl_node_get_attr, py_axl_node.c:188-200 *)
  | ADocOf o =>
    if mem_nat o (w_held w) then
      match node_obj o w with
      | Some (Some a, _, _) =>
        d <- get_doc a w ;;
        Ok (match d with Some d => make (BDoc d false) w | None => w end)
      | _ => Ok w
      end
    else Ok w
  (** py_axl_node_attr_cursor_new, py_axl_node.c:497-503 *)
  | ACursor o =>
    if mem_nat o (w_held w) then
      match node_obj o w with
      | Some (Some a, _, _) => _ <- rd a w ;; Ok (make (BNode (Some a) false None) w)
      | _ => Ok w
      end
    else Ok w
  (** the other attributes and methods *)
  | ARead o =>
    if mem_nat o (w_held w) then
      match look o (w_objs w) with
      | Some (Obj _ (BNode (Some a) _ _)) => _ <- rd a w ;; Ok w
      | Some (Obj _ (BDoc d _)) => _ <- rd_doc d w ;; Ok w
      | _ => Ok w
      end
    else Ok w
  (** py_axl_doc_set_attr, py_axl_doc.c:162-174, axl_doc_set_root, axl_doc.c:2530-2545: the root
      there was, if any, hangs from nothing *)
  | ASetRoot o n =>
    if mem_nat o (w_held w) && mem_nat n (w_held w) then
      match doc_obj o w, node_obj n w with
      | Some (d, _), Some (Some a, _, _) =>
        _ <- rd_doc d w ;;
        _ <- rd a w ;;
        match pick a w with
        | Some (t, w) =>
          let old := map (fun x => if is_root_of d x then (fst x, None) else x) (w_trees w) in
          Ok (set_fin n (w_trees_ (old ++ [(set_doc (Some d) t, Some d)]) w))
        | None => UB
        end
      | _, _ => Ok w
      end
    else Ok w
  (** py_axl_node_set_child, py_axl_node.c:432-465 *)
  | ASetChild o c =>
    if mem_nat o (w_held w) && mem_nat c (w_held w) then
      match node_obj o w, node_obj c w with
      | Some (Some a, fin, _), Some (Some b, _, _) =>
        d <- get_doc a w ;;
        _ <- rd b w ;;
        match pick b w with
        | Some (t, w) =>
          match where_ a w with
          | Some _ => Ok (hand_over d fin c (on_trees (graft a t) w))
          | None => UB
          end
        | None => UB
        end
      | _, _ => Ok w
      end
    else Ok w
  (** py_axl_node_set_child_after, py_axl_node.c:467-495; a node without a parent is [UB],
      axl_node.c:3405, 6390-6393 *)
  | ASetAfter o c =>
    if mem_nat o (w_held w) && mem_nat c (w_held w) then
      match node_obj o w, node_obj c w with
      | Some (Some a, fin, _), Some (Some b, _, _) =>
        d <- get_doc a w ;;
        _ <- rd b w ;;
        match pick b w with
        | Some (t, w) =>
          match where_ a w with
          | Some (s, _) =>
            match par a s with
            | Some p => _ <- rd (t_addr p) w ;; Ok (hand_over d fin c (on_trees (follow a t) w))
            | None => UB
            end
          | None => UB
          end
        | None => UB
        end
      | _, _ => Ok w
      end
    else Ok w
  (** py_axl_node_remove, py_axl_node.c:505-522: the object forgets its node *)
  | ARemove o dealloc =>
    if mem_nat o (w_held w) then
      match node_obj o w with
      | Some (Some a, _, _) =>
        _ <- rd a w ;;
        match sub_of a w with
        | Some t =>
          let trees := map (fun x => (cut a (fst x), snd x)) (filter (fun x => negb (Nat.eqb a (t_addr (fst x)))) (w_trees w)) in
          let w := w_trees_ (trees ++ [(t, None)]) w in
          w <- (if dealloc then node_free a w else Ok w) ;;
          Ok (set_null o w)
        | None => UB
        end
      | _ => Ok w
      end
    else Ok w
  | ADup o => if mem_nat o (w_held w) then Ok (incref o (w_held_ (o :: w_held w) w)) else Ok w
  | ADrop o => if mem_nat o (w_held w) then decref o (w_held_ (del_one o (w_held w)) w) else Ok w
  end.
Fixpoint run (l : list action) (w : world) : res world :=
  match l with [] => Ok w | c :: r => w <- act c w ;; run r w end.
