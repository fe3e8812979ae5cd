(** axl_ns_doc_validate with the errors it reports and the cursors it uses (ns/axl_ns_doc.c).

    The result is that of [ns_validate] (NsModel, with its simplifications) and what was done
    on the way: making a cursor over the attributes, releasing it, calling axl_error_new. *)
From Verif Require Import Prelude HashModel HashStrProofs StrModel AttrModel AttrExec TreeModel EqModel NsModel.
Open Scope list_scope.
Open Scope Z_scope.

(** The messages of axl_ns_doc.c:124, 150, 245, 310 and 437 *)
Inductive nserr := SeveralDefaults | PrefixTwice | NamePrefix | AttrPrefix | NoDocument.
(** axl_node_attr_cursor_new, axl_node_attr_cursor_free and axl_error_new *)
Inductive event := CursorNew | CursorFree | Error (e : nserr).
(** axl_node_attr_cursor_free, axl_node.c:5781-5790, does nothing with NULL; [made]: the node has
    attributes, so that the cursor was made *)
Definition free_cursor (made : bool) : list event := if made then [CursorFree] else [].

(** __axl_ns_node_check_and_install_ns_decls, axl_ns_doc.c:88-166; it is called with a cursor *)
Fixpoint nse_install (l : list (bytes * option bytes)) (ns_table : option nstable) (default_found : bool) : res (option nstable * bool * list event) :=
  match l with
  | [] => Ok (ns_table, true, [])
  | (attr, value) :: r =>
    m <- axl_memcmp (cs attr) (cs (s2b "xmlns")) 5 ;;
    if negb m then nse_install r ns_table default_found
    else
      let t := match ns_table with Some t => t | None => NsTable None None end in
      if Nat.eqb (length attr) 5 then
        if default_found then Ok (Some t, false, free_cursor true ++ [Error SeveralDefaults])
        else nse_install r (Some (NsTable (t_table t) value)) true
      else
        let h := match t_table t with Some h => h | None => hash_new_full bytes (option bytes) unit 1 end in
        let attr := skipn 6 attr in
        x <- hash_exists bytes (option bytes) unit shash skeq h attr ;;
        if (x : bool) then Ok (Some (NsTable (Some h) (t_default t)), false, free_cursor true ++ [Error PrefixTwice])
        else
          h <- hash_insert_full bytes (option bytes) unit shash skeq h attr None value None ;;
          nse_install r (Some (NsTable (Some h) (t_default t))) default_found
  end.
(** __axl_ns_node_validate, axl_ns_doc.c:172-340 *)
Fixpoint nse_validate (up : list (option nstable)) (e : elem) {struct e} : res (elem * bool * list event) :=
  let '(Elem name a t childs) := e in
  let made := has_attributes a in
  l <- (if made then attr_pairs a else Ok []) ;;
  let ev := if made then [CursorNew] else [] in
  ' (t', ok, ev') <- (if made then nse_install l None false else Ok (None, true, [])) ;;
  let t := match t' with Some t' => Some t' | None => t end in
  let ev := ev ++ ev' in
  if negb ok then Ok (Elem name a t childs, false, ev)
  else
    let up := t :: up in
    d <- name_declared up name ;;
    if negb d then Ok (Elem name a t childs, false, ev ++ free_cursor made ++ [Error NamePrefix])
    else
      d <- attrs_declared up l ;;
      if negb d then Ok (Elem name a t childs, false, ev ++ free_cursor made ++ [Error AttrPrefix])
      else
        let ev := ev ++ free_cursor made in
        ' (childs, ok, ev') <-
          (fix go (l : list elem) : res (list elem * bool * list event) :=
             match l with
             | [] => Ok ([], true, [])
             | c :: r =>
               ' (c, ok, ev) <- nse_validate up c ;;
               if negb ok then Ok (c :: r, false, ev)
               else ' (r, ok, ev') <- go r ;; Ok (c :: r, ok, ev ++ ev')
             end) childs ;;
        Ok (Elem name a t childs, ok, ev ++ ev').
(** axl_ns_doc_validate, axl_ns_doc.c:431-451: the document is NULL, or has a root or none *)
Definition nse_doc_validate (doc : option (option elem)) : res (option (option elem) * bool * list event) :=
  match doc with
  | None => Ok (None, false, [Error NoDocument])
  | Some None => Ok (Some None, true, [])
  | Some (Some e) => ' (e, ok, ev) <- nse_validate [] e ;; Ok (Some (Some e), ok, ev)
  end.
