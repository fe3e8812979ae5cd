(** The document parser once more, src/axl_doc.c, building the links of ItemModel: nodes
    and items are made, attached and filled in the order in which the code does it.

    The reading is that of ParseModel, word for word; what differs is where the result is
    put.  A node is an address of [l_heap]; its name and its attributes are in [l_names], at
    its address; the block of an item that is not a node is in [l_conts], at its handle.
    Simplification: as in ParseModel, no encoding handler is installed. *)
From Verif Require Import Prelude StrModel AttrModel TreeModel StreamModel ParseModel.
From Verif Require ItemModel.
Import ItemModel(heap, heap_new, new_node, node_set_child, item_set_child, kind, KNode, KContent, KPi, KComment, KRef, KCdata).
Open Scope Z_scope.

(** struct _axlDoc while parsing, axl_doc.c:306-405, and the variable [node] of
    __axl_doc_parse_common, axl_doc.c:1120 *)
Record ldoc := LDoc {
  l_heap : heap;
  l_names : list (bytes * attrs);
  l_conts : list item;
  l_root : option nat;           (* doc->rootNode *)
  l_stack : list nat;            (* doc->parentNode *)
  l_node : option nat;           (* node *)
  l_preserve : list bool;        (* doc->xmlPreserve *)
  l_header : bool;               (* doc->headerProcess *)
  l_encoding : option bytes;
  l_standalone : bool;
  l_pis : list pi
}.
(** __axl_doc_new, axl_doc.c:438-472 *)
Definition ldoc_new : ldoc := LDoc heap_new [] [] None [] None [] false None false [].
Definition lwith_heap (d : ldoc) h ns cs : ldoc :=
  LDoc h ns cs (l_root d) (l_stack d) (l_node d) (l_preserve d) (l_header d) (l_encoding d) (l_standalone d) (l_pis d).
Definition lwith_stack (d : ldoc) s : ldoc :=
  LDoc (l_heap d) (l_names d) (l_conts d) (l_root d) s (l_node d) (l_preserve d) (l_header d) (l_encoding d) (l_standalone d) (l_pis d).
Definition lwith_root (d : ldoc) r : ldoc :=
  LDoc (l_heap d) (l_names d) (l_conts d) r (l_stack d) (l_node d) (l_preserve d) (l_header d) (l_encoding d) (l_standalone d) (l_pis d).
Definition lwith_node (d : ldoc) n : ldoc :=
  LDoc (l_heap d) (l_names d) (l_conts d) (l_root d) (l_stack d) n (l_preserve d) (l_header d) (l_encoding d) (l_standalone d) (l_pis d).
Definition lwith_preserve (d : ldoc) l : ldoc :=
  LDoc (l_heap d) (l_names d) (l_conts d) (l_root d) (l_stack d) (l_node d) l (l_header d) (l_encoding d) (l_standalone d) (l_pis d).
Definition lwith_header (d : ldoc) : ldoc :=
  LDoc (l_heap d) (l_names d) (l_conts d) (l_root d) (l_stack d) (l_node d) (l_preserve d) true (l_encoding d) (l_standalone d) (l_pis d).
Definition lwith_encoding (d : ldoc) e : ldoc :=
  LDoc (l_heap d) (l_names d) (l_conts d) (l_root d) (l_stack d) (l_node d) (l_preserve d) (l_header d) e (l_standalone d) (l_pis d).
Definition lwith_standalone (d : ldoc) b : ldoc :=
  LDoc (l_heap d) (l_names d) (l_conts d) (l_root d) (l_stack d) (l_node d) (l_preserve d) (l_header d) (l_encoding d) b (l_pis d).
Definition lwith_pis (d : ldoc) l : ldoc :=
  LDoc (l_heap d) (l_names d) (l_conts d) (l_root d) (l_stack d) (l_node d) (l_preserve d) (l_header d) (l_encoding d) (l_standalone d) l.

(** axl_stack_peek, axl_stack.c:179-190 (C07) *)
Definition peek (d : ldoc) : option nat := hd_error (l_stack d).

(** the type given to axl_item_set_child: axl_node_set_comment (axl_node.c:3041-3067),
    axl_node_add_pi_target (4097-4114), __axl_node_set_content_common_ref (2836-2890) *)
Definition kind_of (i : item) : kind :=
  match i with INode _ => KNode | IContent _ => KContent | ICdata _ => KCdata | IPi _ => KPi | IComment _ => KComment | IRef _ => KRef end.
(** those functions: nothing without a node, otherwise a new block in a new item *)
Definition put_item (d : ldoc) (p : option nat) (i : item) : res ldoc :=
  match p with
  | None => Ok d
  | Some p => h <- item_set_child (l_heap d) p (kind_of i) (length (l_conts d)) ;; Ok (lwith_heap d h (l_names d) (l_conts d ++ [i]))
  end.

(** axl_doc_consume_pi, axl_doc.c:3414-3517 *)
Definition put_pi (d : ldoc) (p : pi) : res ldoc :=
  match peek d with
  | None => Ok (lwith_pis d (l_pis d ++ [p]))
  | Some n => put_item d (Some n) (IPi p)
  end.
Definition consume_pi (st : stream) (d : ldoc) : res (option (stream * ldoc)) :=
  '(st, v) <- stream_peek st (s2b "<?") ;;
  if 0 <? v then
    let st := stream_accept st in
    '(st, o) <- get_until st true [s2b " ?>"; s2b "?>"; s2b " "] ;;
    match o with
    | None => Ok None
    | Some (target, matched) =>
      let target := cstr target in
      x <- axl_cmp (Some (cs (map to_lower target))) (Some (cs (s2b "xml"))) ;;
      if (x : bool) then Ok None
      else if (matched =? 0) || (matched =? 1) then d <- put_pi d (Pi target None) ;; Ok (Some (st, d))
      else if matched =? 2 then
        '(st, o) <- get_until st true [s2b " ?>"; s2b "?>"] ;;
        match o with
        | None => Ok None
        | Some (content, _) => d <- put_pi d (Pi target (Some (cstr content))) ;; Ok (Some (st, d))
        end
      else Ok None
    end
  else Ok (Some (st, d)).

(** axl_doc_consume_comments, axl_doc.c:3327-3396; [parent] is read once, 3335 *)
Fixpoint comments_loop (fuel : nat) (st : stream) (parent : option nat) (d : ldoc) : res (option (stream * ldoc)) :=
  match fuel with
  | O => NoFuel
  | S fuel' =>
    st <- consume_spaces st ;;
    '(st, v) <- stream_inspect st (s2b "<!--") ;;
    '(st, d, found) <-!
      (if 0 <? v then
         '(st, o) <- get_until_ref st true [s2b "-->"] ;;
         match o with
         | None => Ok None
         | Some (content, _) => d <- put_item d parent (IComment content) ;; Ok (Some (st, d, true))
         end
       else Ok (Some (st, d, false))) ;;
    st <- consume_spaces st ;;
    '(st, v) <- (if l_header d then stream_peek st (s2b "<?") else Ok (st, 0)) ;;
    '(st, d, found) <-!
      (if 0 <? v then
         '(st, d) <-! consume_pi st d ;; Ok (Some (st, d, true))
       else Ok (Some (st, d, found))) ;;
    if (found : bool) then comments_loop fuel' st parent d
    else (st <- consume_spaces st ;; Ok (Some (st, d)))
  end.
Definition consume_comments (st : stream) (d : ldoc) : res (option (stream * ldoc)) :=
  comments_loop (turns st) st (peek d) d.

(** axl_doc_configure_encoding, axl_doc.c:524-575, with no handler *)
Definition configure_encoding (d : ldoc) : res unit :=
  match l_encoding d with
  | None => Ok tt
  | Some e =>
    '(b, _) <- stream_trim_with_size (cs e) ;;
    b <- stream_remove b (cs (s2b "-")) false ;;
    b <- stream_remove b (cs (s2b "_")) false ;;
    b <- common_to to_lower b ;;
    Ok tt
  end.

(** __axl_doc_parse_xml_header, axl_doc.c:597-731 *)
Definition parse_xml_header (st : stream) (d : ldoc) : res (option (stream * ldoc)) :=
  bom <- stream_check st ["239"; "187"; "191"]%char ;;
  let st := if (bom : bool) then stream_move st 3 else st in
  '(st, v) <- stream_inspect st (s2b "<?") ;;
  '(st, d) <-!
    (if v =? 0 then Ok (Some (st, d))
     else
       '(st, v) <- stream_inspect st (s2b "xml") ;;
       if negb (0 <? v) then Ok None
       else
         st <- consume_spaces st ;;
         '(st, v) <- stream_inspect st (s2b "version=") ;;
         if v =? 0 then Ok None
         else
           st <- consume_spaces st ;;
           '(st, v) <- stream_inspect_several st
              [["034"; "1"; "."; "0"; "034"]%char; ["039"; "1"; "."; "0"; "039"]%char] ;;
           if v =? 0 then Ok None
           else
             st <- consume_spaces st ;;
             '(st, v) <- stream_inspect_several st (quoted (s2b "encoding=")) ;;
             '(st, d) <-!
               (if 0 <? v then
                  '(st, o) <- get_until st true quotes ;;
                  match o with
                  | None => Ok None
                  | Some (e, _) => Ok (Some (st, lwith_encoding d (Some (cstr e))))
                  end
                else Ok (Some (st, d))) ;;
             st <- consume_spaces st ;;
             '(st, v) <- stream_inspect_several st (quoted (s2b "standalone=")) ;;
             '(st, d) <-!
               (if 0 <? v then
                  '(st, o) <- get_until st true quotes ;;
                  match o with
                  | None => Ok None
                  | Some (e, _) => y <- is_yes e ;; Ok (Some (st, lwith_standalone d y))
                  end
                else Ok (Some (st, d))) ;;
             st <- consume_spaces st ;;
             '(st, v) <- stream_inspect st (s2b "?>") ;;
             if negb (0 <? v) then Ok None
             else consume_comments st d) ;;
  _ <- configure_encoding d ;;
  '(st, v) <- stream_inspect st (s2b "<!DOCTYPE") ;;
  if 0 <? v then
    '(st, _) <- get_until_ref st true [s2b ">"] ;;
    consume_comments st d
  else Ok (Some (st, d)).

(** the attributes of a node *)
Definition attrs_of (d : ldoc) (n : nat) : res attrs := '(_, a) <- of_option (nth_error (l_names d) n) ;; Ok a.
Fixpoint set_attrs (l : list (bytes * attrs)) (n : nat) (a : attrs) : list (bytes * attrs) :=
  match l, n with
  | [], _ => []
  | (x, _) :: l, O => (x, a) :: l
  | x :: l, S n => x :: set_attrs l n a
  end.
Definition put_attrs (d : ldoc) (n : nat) (a : attrs) : ldoc := lwith_heap d (l_heap d) (set_attrs (l_names d) n a) (l_conts d).

(** the loop of __axl_doc_parse_node after the name, axl_doc.c:878-1046: whether the
    element is empty *)
Fixpoint attrs_loop (fuel : nat) (st : stream) (d : ldoc) (n : nat) : res (option (stream * ldoc * bool)) :=
  match fuel with
  | O => NoFuel
  | S fuel' =>
    '(st, v) <- stream_inspect st (s2b "/>") ;;
    if 0 <? v then Ok (Some (st, d, true))
    else
      '(st, v) <- stream_inspect st (s2b ">") ;;
      if 0 <? v then Ok (Some (st, d, false))
      else
        st <- consume_spaces st ;;
        '(st, o) <- get_until st true [s2b "="] ;;
        match o with
        | None => Ok None
        | Some (name, _) =>
          let name := cstr name in
          match name with
          | [] => Ok None
          | _ =>
            '(st, v) <- stream_inspect st ["034"%char] ;;
            '(st, delim) <-!
              (if 0 <? v then Ok (Some (st, "034"%char))
               else
                 '(st, v) <- stream_inspect st ["039"%char] ;;
                 if 0 <? v then Ok (Some (st, "039"%char)) else Ok None) ;;
            '(st, o) <- get_until st true [[delim]] ;;
            let value := match o with None => None | Some (t, _) => Some (cstr t) end in
            a <- attrs_of d n ;;
            h <- has_attribute a name ;;
            if (h : bool) then Ok None
            else
              '(a, _) <- set_attribute_core a name value true ;;
              let d := put_attrs d n a in
              p <- preserve_push (l_preserve d) name value ;;
              match p with
              | None => Ok None
              | Some l =>
                st <- consume_spaces st ;;
                attrs_loop fuel' st (lwith_preserve d l) n
              end
          end
        end
  end.

(** a node is made, axl_doc.c:841-861: the root, or a child of the node on top of the stack
    (axl_doc_set_child_current_parent, 2559-2580, which does nothing without one); then
    [*calling_node], 865-866 *)
Definition open_node (d : ldoc) (name : bytes) : res (ldoc * nat) :=
  let '(h, n) := new_node (l_heap d) in
  let d := lwith_heap d h (l_names d ++ [(name, no_attrs)]) (l_conts d) in
  d <- (match l_root d with
        | None => Ok (lwith_stack (lwith_root d (Some n)) (n :: l_stack d))
        | Some _ =>
          match peek d with
          | None => Ok d
          | Some p =>
            h <- node_set_child (l_heap d) p n ;;
            Ok (lwith_stack (lwith_heap d h (l_names d) (l_conts d)) (n :: l_stack d))
          end
        end) ;;
  Ok (lwith_node d (Some n), n).
(** an empty element leaves the stack, axl_doc.c:898-905 *)
Definition drop_node (d : ldoc) : ldoc :=
  let d := lwith_stack d (tl (l_stack d)) in lwith_node d (peek d).

(** __axl_doc_parse_node, axl_doc.c:772-1050; the boolean is is_empty *)
Definition parse_node (st : stream) (d : ldoc) : res (option (stream * ldoc * bool)) :=
  '(st, d) <-! consume_comments st d ;;
  '(st, v) <- stream_inspect st (s2b "<") ;;
  '(st, go) <- (if 0 <? v then Ok (st, true) else stream_remains st) ;;
  if negb go then Ok None
  else
    '(st, o) <- get_until st true [s2b ">"; s2b " "] ;;
    match o with
    | None => Ok None
    | Some (name, matched) =>
      let name := cstr name in
      match name with
      | [] => Ok None
      | _ =>
        '(st, d, is_empty) <-!
          (if matched =? 1 then
             '(d, n) <- open_node d name ;;
             st <- consume_spaces st ;;
             attrs_loop (turns st) st d n
           else
             c <- rd (cs name) (Z.of_nat (length name) - 1) ;;
             let slash := Ascii.eqb c "/" in
             '(d, _) <- open_node d (if slash then removelast name else name) ;;
             Ok (Some (st, d, slash))) ;;
        Ok (Some (st, if (is_empty : bool) then drop_node d else d, is_empty))
      end
    end.

(** __axl_doc_parse_close_node, axl_doc.c:1057-1110: whether the name fits *)
Definition parse_close_node (st : stream) (d : ldoc) : res (option stream) :=
  '(st, o) <- get_until_ref st true [s2b ">"] ;;
  match o with
  | None => Ok None
  | Some (text, _) =>
    c <- rd (cs text) (Z.of_nat (length text) - 1) ;;
    let text := if is_ws c then removelast text else text in
    match peek d with
    | None => Ok None
    | Some n =>
      '(name, _) <- of_option (nth_error (l_names d) n) ;;
      e <- axl_cmp (Some (cs name)) (Some (cs text)) ;;
      if (e : bool) then Ok (Some st) else Ok None
    end
  end.

(** the loop of __axl_doc_parse_common, axl_doc.c:1164-1290 *)
Fixpoint content_loop (fuel : nat) (st : stream) (d : ldoc) : res (option (stream * ldoc)) :=
  match fuel with
  | O => NoFuel
  | S fuel' =>
    '(st, more) <- stream_remains st ;;
    if negb more then Ok (Some (st, d))
    else
      let index := s_idx st in
      st <- (if hd false (l_preserve d) then Ok st else consume_spaces st) ;;
      '(st, v1) <- stream_peek st (s2b "<?") ;;
      '(st, v2) <- (if 0 <? v1 then Ok (st, 0) else stream_peek st (s2b "<!--")) ;;
      if (0 <? v1) || (0 <? v2) then
        '(st, d) <-! consume_comments st d ;;
        content_loop fuel' st d
      else
        '(st, v) <- stream_peek st (s2b "</") ;;
        if 0 <? v then
          let st := stream_accept st in
          match parse_close_node st d with
          | Ok (Some st) =>
            let d := drop_node d in
            let d := lwith_preserve d (tl (l_preserve d)) in
            match l_stack d with
            | [] => Ok (Some (st, d))
            | _ => content_loop fuel' st d
            end
          | Ok None => Ok None
          | UB => UB
          | NoFuel => NoFuel
          end
        else
          '(st, v) <- stream_peek st (s2b "<![CDATA[") ;;
          if 0 <? v then
            let st := stream_accept st in
            '(st, o) <- get_until st true [s2b "]]>"] ;;
            match o with
            | None => Ok None
            | Some (text, _) => d <- put_item d (l_node d) (ICdata (cstr text)) ;; content_loop fuel' st d
            end
          else
            '(st, v) <- stream_peek st (s2b "<") ;;
            if 0 <? v then
              let st := stream_accept st in
              '(st, d, _) <-! parse_node st d ;;
              content_loop fuel' st d
            else
              let st := if index <? s_idx st then stream_move st index else st in
              '(st, o) <- get_until st false [s2b "<"] ;;
              match o with
              | None => Ok None
              | Some (text, _) => d <- put_item d (l_node d) (IContent (cstr text)) ;; content_loop fuel' st d
              end
  end.

(** __axl_doc_parse_common, axl_doc.c:1118-1317 *)
Definition parse_common (st : stream) : res (option ldoc) :=
  match parse_xml_header st ldoc_new with
  | Ok (Some (st, d)) =>
    '(st, d, is_empty) <-! parse_node st (lwith_header d) ;;
    '(_, d) <-! (if (is_empty : bool) then Ok (Some (st, d)) else content_loop (turns st) st d) ;;
    match l_stack d with
    | [] => Ok (Some d)
    | _ => Ok None
    end
  | Ok None => Ok None
  | UB => UB
  | NoFuel => NoFuel
  end.
(** axl_doc_parse and axl_doc_parse_from_file, axl_doc.c:1849-1852 and 1916-1920 *)
Definition doc_parse (content : bytes) : res (option ldoc) := parse_common (stream_mem content).
Definition doc_parse_file (content : bytes) : res (option ldoc) :=
  st <- stream_file content ;; parse_common st.

(** what the program gets: the document *)
Definition l_doc_root (d : ldoc) : option nat := l_root d.
(** axl_node_get_name, axl_node.c:2281-2286 *)
Definition node_name (d : ldoc) (n : nat) : bytes := match nth_error (l_names d) n with Some (x, _) => x | None => [] end.
