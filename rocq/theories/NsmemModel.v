(** Where the tables of namespaces point: ns/axl_ns_doc.c and ns/axl_ns_node.c with the
    attributes of src/axl_node.c, on strings in memory.

    axl_ns_doc_validate installs at each element that declares namespaces a table whose
    keys and values are the strings of the attributes themselves (axl_ns_doc.c:130,
    axl_ns_doc.c:145-156): they are not copied.  NsModel has the tables with their contents
    and NoteModel the annotation they are kept under; this file has the pointers.

    Simplifications: the elements of a document are a list, in document order, each with the
    place of its parent, which comes before it (only the parents are walked by the
    functions below, and all elements by the validation); the attributes of an element are
    a list also from eleven on (their order shows nowhere here, AttrModel has the hash); the
    hash of a table is the list of its pairs, and looking up reads the keys one after the
    other (the C reads those of one bucket); names and values are taken to need no escaping
    (EscModel); a call about an element that is not there does nothing; logs and error texts
    are dropped (NserrModel). *)
From Verif Require Import Prelude NsModel.
Open Scope nat_scope.
Open Scope list_scope.

(** strings in memory; [None] is a string that was released *)
Definition mem := list (option bytes).
Definition read (m : mem) (p : nat) : res bytes := match nth_error m p with Some (Some s) => Ok s | _ => UB end.
(** axl_strdup, axl_new *)
Definition alloc (m : mem) (s : bytes) : mem * nat := (m ++ [Some s], length m).
(** axl_free; releasing twice is [UB] *)
Definition free (m : mem) (p : nat) : res mem :=
  match nth_error m p with Some (Some _) => Ok (firstn p m ++ None :: skipn (S p) m) | _ => UB end.

(** struct _axlNodeAttr, axl_node.c:87-108 *)
Record attr := Attr { a_key : nat; a_val : nat; a_fac : bool }.
(** struct _axlNsTable, axl_ns_doc.c:65-71: pointers to the attributes ([attr + 6],
    axl_ns_doc.c:145, is the key pointer with the first six bytes left out when read) *)
Record table := Table { t_pre : list (nat * nat); t_def : option nat }.
Record elem := Elem { e_parent : option nat; e_name : bytes; e_attrs : list attr; e_tab : option table }.
Record st := St { s_mem : mem; s_elems : list elem }.
Definition st0 : st := St [] [].

(** axl_node_has_attribute, axl_node.c:1282-1311 *)
Fixpoint has (m : mem) (l : list attr) (name : bytes) : res bool :=
  match l with
  | [] => Ok false
  | a :: r => k <- read m (a_key a) ;; if bytes_eqb k name then Ok true else has m r name
  end.
(** the strings of an attribute that does not come from the factory of the document,
    axl_node.c:1363-1367 and the handlers given at axl_node.c:1099-1103, 1117-1119 *)
Definition drop_attr (m : mem) (a : attr) : res mem :=
  if a_fac a then Ok m else m <- free m (a_key a) ;; free m (a_val a).
(** axl_node_set_attribute, axl_node.c:1154-1211, with __axl_node_set_attribute,
    axl_node.c:1031-1126; [fac] when it is the parser that sets it, with strings from the
    factory (axl_node_set_attribute_from_factory, axl_node.c:1257-1267) *)
Definition put (m : mem) (l : list attr) (fac : bool) (name value : bytes) : res (mem * list attr) :=
  match name with
  | [] => Ok (m, l)
  | _ =>
    let (m, k) := alloc m name in
    let (m, v) := alloc m value in
    x <- has m l name ;;
    if (x : bool) then (m <- drop_attr m (Attr k v fac) ;; Ok (m, l))
    else Ok (m, Attr k v fac :: l)
  end.
(** the loop of axl_node_remove_attribute, axl_node.c:1347-1378 *)
Fixpoint unlink (m : mem) (l : list attr) (name : bytes) : res (option (attr * list attr)) :=
  match l with
  | [] => Ok None
  | a :: r =>
    k <- read m (a_key a) ;;
    if bytes_eqb k name then Ok (Some (a, r))
    else (o <- unlink m r name ;; Ok (match o with Some (b, r) => Some (b, a :: r) | None => None end))
  end.
(** axl_hash_foreach with __axl_node_remove_attribute_reinsert, axl_node.c:1313-1320, 1399 *)
Fixpoint reinsert (m : mem) (old l : list attr) : res (mem * list attr) :=
  match old with
  | [] => Ok (m, l)
  | a :: r =>
    k <- read m (a_key a) ;; v <- read m (a_val a) ;;
    ' (m, l) <- put m l false k v ;; reinsert m r l
  end.
(** axl_hash_free, axl_node.c:1402 *)
Fixpoint drop_attrs (m : mem) (l : list attr) : res mem :=
  match l with [] => Ok m | a :: r => m <- drop_attr m a ;; drop_attrs m r end.
(** axl_node_remove_attribute, axl_node.c:1331-1408: with eleven attributes the ten that
    are left are set again, as copies, and the eleven released *)
Definition take (m : mem) (l : list attr) (name : bytes) : res (mem * list attr) :=
  o <- unlink m l name ;;
  match o with
  | None => Ok (m, l)
  | Some (a, r) =>
    m <- drop_attr m a ;;
    if Nat.eqb (length l) 11 then
      ' (m, l) <- reinsert m r [] ;; m <- drop_attrs m r ;; Ok (m, l)
    else Ok (m, r)
  end.

(** ** the tables *)
(** axl_memcmp (name, "xmlns", 5), axl_ns_doc.c:99, 260 *)
Definition xmlns (name : bytes) : bool := bytes_eqb (firstn 5 name) (s2b "xmlns").
(** axl_hash_exists and axl_hash_get on a table, axl_ns_doc.c:146, 228, 293, 483-485 *)
Fixpoint look (m : mem) (l : list (nat * nat)) (prefix : bytes) : res (option nat) :=
  match l with
  | [] => Ok None
  | (k, v) :: r => s <- read m k ;; if bytes_eqb (skipn 6 s) prefix then Ok (Some v) else look m r prefix
  end.
(** __axl_ns_node_check_and_install_ns_decls, axl_ns_doc.c:88-166 *)
Fixpoint install (m : mem) (l : list attr) (t : option table) (default_found : bool) : res (option table * bool) :=
  match l with
  | [] => Ok (t, true)
  | a :: r =>
    name <- read m (a_key a) ;;
    if negb (xmlns name) then install m r t default_found
    else
      let t := match t with Some t => t | None => Table [] None end in
      if Nat.eqb (length name) 5 then
        if default_found then Ok (Some t, false)
        else install m r (Some (Table (t_pre t) (Some (a_val a)))) true
      else
        x <- look m (t_pre t) (skipn 6 name) ;;
        match x with
        | Some _ => Ok (Some t, false)
        | None => install m r (Some (Table (t_pre t ++ [(a_key a, a_val a)]) (t_def t))) default_found
        end
  end.
(** the tables of an element and of its parents: axl_node_annotate_get and
    axl_node_get_parent in the loops of axl_ns_doc.c:222-250, 287-315, 478-490, 517-529 *)
Fixpoint tables (fuel : nat) (l : list elem) (i : option nat) : res (list (option table)) :=
  match i with
  | None => Ok []
  | Some i =>
    match fuel with
    | 0 => NoFuel
    | S fuel => e <- of_option (nth_error l i) ;; up <- tables fuel l (e_parent e) ;; Ok (e_tab e :: up)
    end
  end.
(** the loops of axl_ns_doc.c:222-250, 287-315 *)
Fixpoint declared_up (m : mem) (up : list (option table)) (prefix : bytes) : res bool :=
  match up with
  | [] => Ok false
  | t :: up =>
    x <- match t with Some t => look m (t_pre t) prefix | None => Ok None end ;;
    match x with Some _ => Ok true | None => declared_up m up prefix end
  end.
(** the name of the element, axl_ns_doc.c:199-250 *)
Definition name_fine (m : mem) (up : list (option table)) (name : bytes) : res bool :=
  match colon name with Some (p, _) => declared_up m up p | None => Ok true end.
(** its attributes, axl_ns_doc.c:253-325 *)
Fixpoint attrs_fine (m : mem) (up : list (option table)) (l : list attr) : res bool :=
  match l with
  | [] => Ok true
  | a :: r =>
    name <- read m (a_key a) ;;
    if xmlns name then attrs_fine m up r
    else (x <- name_fine m up name ;; if (x : bool) then attrs_fine m up r else Ok false)
  end.
Definition upd (l : list elem) (i : nat) (e : elem) : list elem := firstn i l ++ e :: skipn (S i) l.
(** one element in __axl_ns_node_validate, axl_ns_doc.c:172-325; a table that was there is
    released by axl_node_annotate_data_full when another one is installed *)
Definition validate_at (s : st) (i : nat) : res (st * bool) :=
  e <- of_option (nth_error (s_elems s) i) ;;
  ' (t, ok) <- install (s_mem s) (e_attrs e) None false ;;
  let t := match t with Some t => Some t | None => e_tab e end in
  let l := upd (s_elems s) i (Elem (e_parent e) (e_name e) (e_attrs e) t) in
  if negb ok then Ok (St (s_mem s) l, false)
  else
    up <- tables (S (length l)) l (Some i) ;;
    x <- name_fine (s_mem s) up (e_name e) ;;
    if negb x then Ok (St (s_mem s) l, false)
    else (x <- attrs_fine (s_mem s) up (e_attrs e) ;; Ok (St (s_mem s) l, x)).
(** the elements one after the other, axl_ns_doc.c:327-336; axl_ns_doc_validate,
    axl_ns_doc.c:431-451 *)
Fixpoint validate_from (todo i : nat) (s : st) : res (st * bool) :=
  match todo with
  | 0 => Ok (s, true)
  | S todo => ' (s, ok) <- validate_at s i ;; if (ok : bool) then validate_from todo (S i) s else Ok (s, false)
  end.
Definition validate (s : st) : res (st * bool) := validate_from (length (s_elems s)) 0 s.

(** axl_ns_doc_node_check, axl_ns_doc.c:469-494 *)
Fixpoint bound (m : mem) (up : list (option table)) (prefix ns : bytes) : res bool :=
  match up with
  | [] => Ok false
  | t :: up =>
    x <- match t with Some t => look m (t_pre t) prefix | None => Ok None end ;;
    match x with Some v => (s <- read m v ;; Ok (bytes_eqb s ns)) | None => bound m up prefix ns end
  end.
(** axl_ns_doc_check_default, axl_ns_doc.c:509-533 *)
Fixpoint default_is (m : mem) (up : list (option table)) (ns : bytes) : res bool :=
  match up with
  | [] => Ok false
  | Some (Table _ (Some d)) :: _ => s <- read m d ;; Ok (bytes_eqb s ns)
  | _ :: up => default_is m up ns
  end.
(** axl_ns_node_cmp, axl_ns_node.c:91-129 *)
Definition node_is (s : st) (i : nat) (ns name : bytes) : res bool :=
  e <- of_option (nth_error (s_elems s) i) ;;
  up <- tables (S (length (s_elems s))) (s_elems s) (Some i) ;;
  match colon (e_name e) with
  | Some (p, l) => ok <- bound (s_mem s) up p ns ;; Ok (ok && bytes_eqb name l)
  | None => ok <- default_is (s_mem s) up ns ;; Ok (ok && bytes_eqb name (e_name e))
  end.

(** ** a program that works with the document *)
Inductive call :=
| New (parent : nat) (name : bytes)          (** a new element, the last child of [parent] *)
| Set_ (i : nat) (name value : bytes)        (** axl_node_set_attribute *)
| Parsed (i : nat) (name value : bytes)      (** the parser finds an attribute *)
| Remove (i : nat) (name : bytes)            (** axl_node_remove_attribute *)
| Validate.                                  (** axl_ns_doc_validate *)
(** a function on the attributes of one element *)
Definition on (s : st) (i : nat) (f : mem -> list attr -> res (mem * list attr)) : res st :=
  match nth_error (s_elems s) i with
  | None => Ok s
  | Some e => ' (m, l) <- f (s_mem s) (e_attrs e) ;; Ok (St m (upd (s_elems s) i (Elem (e_parent e) (e_name e) l (e_tab e))))
  end.
Definition act (s : st) (c : call) : res st :=
  match c with
  | New p n =>
    match s_elems s with
    | [] => Ok (St (s_mem s) [Elem None n [] None])
    | l => if p <? length l then Ok (St (s_mem s) (l ++ [Elem (Some p) n [] None])) else Ok s
    end
  | Set_ i n v => on s i (fun m l => put m l false n v)
  | Parsed i n v => on s i (fun m l => put m l true n v)
  | Remove i n => on s i (fun m l => take m l n)
  | Validate => ' (s, _) <- validate s ;; Ok s
  end.
Fixpoint run (s : st) (l : list call) : res st :=
  match l with [] => Ok s | c :: r => s <- act s c ;; run s r end.
