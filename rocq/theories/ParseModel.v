(** Model of the document parser, src/axl_doc.c, over StreamModel.

    A function that reports an error and returns false (or NULL) yields [None].
    The stack of opened nodes (doc->parentNode) is a list, innermost first (C07),
    and doc->xmlPreserve a list of booleans (C08).  Simplifications: a node is
    attached to its parent when it is closed, not when it is opened, and receives its
    attributes before it is put on the stack (nothing looks at it in between, and an
    error discards the document); no encoding handler is installed (see
    BabelModel). *)
From Verif Require Import Prelude StrModel AttrModel TreeModel StreamModel.
Open Scope Z_scope.

(** [x <-! e ;; k]: go on unless an error was reported *)
Definition bindo {A B} (r : res (option A)) (k : A -> res (option B)) : res (option B) :=
  match r with
  | Ok (Some a) => k a
  | Ok None => Ok None
  | UB => UB
  | NoFuel => NoFuel
  end.
Notation "' p <-! e ;; k" := (bindo e (fun p => k)) (at level 61, p pattern, e at next level, right associativity).

(** struct _axlDoc while parsing, axl_doc.c:306-405.  [p_root] is the finished root
    node, so that doc->rootNode == NULL is: no root and nothing opened. *)
Record pdoc := PDoc {
  p_root : option node;
  p_stack : list node;           (* doc->parentNode *)
  p_preserve : list bool;        (* doc->xmlPreserve *)
  p_header : bool;               (* doc->headerProcess *)
  p_encoding : option bytes;
  p_standalone : bool;
  p_pis : list pi
}.
(** __axl_doc_new, axl_doc.c:438-472 *)
Definition pdoc_new : pdoc := PDoc None [] [] false None false [].
Definition with_stack (d : pdoc) (s : list node) : pdoc :=
  PDoc (p_root d) s (p_preserve d) (p_header d) (p_encoding d) (p_standalone d) (p_pis d).
Definition with_preserve (d : pdoc) (l : list bool) : pdoc :=
  PDoc (p_root d) (p_stack d) l (p_header d) (p_encoding d) (p_standalone d) (p_pis d).
Definition with_root (d : pdoc) (n : node) : pdoc :=
  PDoc (Some n) (p_stack d) (p_preserve d) (p_header d) (p_encoding d) (p_standalone d) (p_pis d).
Definition with_pis (d : pdoc) (l : list pi) : pdoc :=
  PDoc (p_root d) (p_stack d) (p_preserve d) (p_header d) (p_encoding d) (p_standalone d) l.
Definition with_encoding (d : pdoc) (e : option bytes) : pdoc :=
  PDoc (p_root d) (p_stack d) (p_preserve d) (p_header d) e (p_standalone d) (p_pis d).
Definition with_standalone (d : pdoc) (b : bool) : pdoc :=
  PDoc (p_root d) (p_stack d) (p_preserve d) (p_header d) (p_encoding d) b (p_pis d).
Definition with_header (d : pdoc) : pdoc :=
  PDoc (p_root d) (p_stack d) (p_preserve d) true (p_encoding d) (p_standalone d) (p_pis d).

(** axl_item_set_child on the current parent: appended, axl_node.c:6295-6364 *)
Definition add_to (n : node) (i : item) : node := let '(Node s a l) := n in Node s a (l ++ [i]).
Definition add_item (d : pdoc) (i : item) : pdoc :=
  match p_stack d with
  | [] => d
  | n :: r => with_stack d (add_to n i :: r)
  end.
(** a complete element, under the current parent or as the root *)
Definition add_node (d : pdoc) (n : node) : pdoc :=
  match p_stack d with
  | [] => with_root d n
  | _ => add_item d (INode n)
  end.

(** axl_doc_consume_pi, axl_doc.c:3414-3517, to the current parent or else to the
    document (axl_list_always_return_1 appends, C06) *)
Definition add_pi (d : pdoc) (p : pi) : pdoc :=
  match p_stack d with
  | [] => with_pis d (p_pis d ++ [p])
  | _ => add_item d (IPi p)
  end.
Definition consume_pi (st : stream) (d : pdoc) : res (option (stream * pdoc)) :=
  '(st, v) <- stream_peek st (s2b "<?") ;;
  if 0 <? v then
    let st := stream_accept st in
    '(st, o) <- get_until st true [s2b " ?>"; s2b "?>"; s2b " "] ;;
    match o with
    | None => Ok None
    | Some (target, matched) =>
      let target := cstr target in
      x <- axl_cmp (Some (cs (map to_lower target))) (Some (cs (s2b "xml"))) ;;
      if (x : bool) then Ok None
      else if (matched =? 0) || (matched =? 1) then Ok (Some (st, add_pi d (Pi target None)))
      else if matched =? 2 then
        '(st, o) <- get_until st true [s2b " ?>"; s2b "?>"] ;;
        match o with
        | None => Ok None
        | Some (content, _) => Ok (Some (st, add_pi d (Pi target (Some (cstr content)))))
        end
      else Ok None
    end
  else Ok (Some (st, d)).

(** axl_doc_consume_comments, axl_doc.c:3327-3396 *)
Fixpoint comments_loop (fuel : nat) (st : stream) (d : pdoc) : res (option (stream * pdoc)) :=
  match fuel with
  | O => NoFuel
  | S fuel' =>
    st <- consume_spaces st ;;
    '(st, v) <- stream_inspect st (s2b "<!--") ;;
    '(st, d, found) <-!
      (if 0 <? v then
         '(st, o) <- get_until_ref st true [s2b "-->"] ;;
         match o with
         | None => Ok None
         | Some (content, _) => Ok (Some (st, add_item d (IComment content), true))
         end
       else Ok (Some (st, d, false))) ;;
    st <- consume_spaces st ;;
    '(st, v) <- (if p_header d then stream_peek st (s2b "<?") else Ok (st, 0)) ;;
    '(st, d, found) <-!
      (if 0 <? v then
         '(st, d) <-! consume_pi st d ;; Ok (Some (st, d, true))
       else Ok (Some (st, d, found))) ;;
    if (found : bool) then comments_loop fuel' st d
    else (st <- consume_spaces st ;; Ok (Some (st, d)))
  end.
Definition consume_comments (st : stream) (d : pdoc) : res (option (stream * pdoc)) :=
  comments_loop (turns st) st d.

(** axl_doc_configure_encoding, axl_doc.c:524-575, with no handler: the normalised
    name is computed and dropped *)
Definition configure_encoding (d : pdoc) : res unit :=
  match p_encoding d with
  | None => Ok tt
  | Some e =>
    '(b, _) <- stream_trim_with_size (cs e) ;;
    b <- stream_remove b (cs (s2b "-")) false ;;
    b <- stream_remove b (cs (s2b "_")) false ;;
    b <- common_to to_lower b ;;
    Ok tt
  end.

(** memcmp ("yes", value, 3) on the block holding [value], axl_doc.c:690 *)
Definition is_yes (value : bytes) : res bool :=
  v <- mem_sub (cs value) 0 3 ;; Ok (bytes_eqb v (s2b "yes")).

(** the value of encoding= or standalone=, axl_doc.c:657 and 682 *)
Definition quotes : list bytes := [s2b "'"; ["034"%char]].
Definition quoted (s : bytes) : list bytes := [s ++ ["034"%char]; s ++ ["'"%char]].

(** __axl_doc_parse_xml_header, axl_doc.c:597-731 *)
Definition parse_xml_header (st : stream) (d : pdoc) : res (option (stream * pdoc)) :=
  bom <- stream_check st ["239"; "187"; "191"]%char ;;
  let st := if (bom : bool) then stream_move st 3 else st in
  '(st, v) <- stream_inspect st (s2b "<?") ;;
  '(st, d) <-!
    (if v =? 0 then Ok (Some (st, d))
     else
       '(st, v) <- stream_inspect st (s2b "xml") ;;
       if negb (0 <? v) then Ok None
       else
         st <- consume_spaces st ;;
         '(st, v) <- stream_inspect st (s2b "version=") ;;
         if v =? 0 then Ok None
         else
           st <- consume_spaces st ;;
           '(st, v) <- stream_inspect_several st
              [["034"; "1"; "."; "0"; "034"]%char; ["039"; "1"; "."; "0"; "039"]%char] ;;
           if v =? 0 then Ok None
           else
             st <- consume_spaces st ;;
             '(st, v) <- stream_inspect_several st (quoted (s2b "encoding=")) ;;
             '(st, d) <-!
               (if 0 <? v then
                  '(st, o) <- get_until st true quotes ;;
                  match o with
                  | None => Ok None
                  | Some (e, _) => Ok (Some (st, with_encoding d (Some (cstr e))))
                  end
                else Ok (Some (st, d))) ;;
             st <- consume_spaces st ;;
             '(st, v) <- stream_inspect_several st (quoted (s2b "standalone=")) ;;
             '(st, d) <-!
               (if 0 <? v then
                  '(st, o) <- get_until st true quotes ;;
                  match o with
                  | None => Ok None
                  | Some (e, _) => y <- is_yes e ;; Ok (Some (st, with_standalone d y))
                  end
                else Ok (Some (st, d))) ;;
             st <- consume_spaces st ;;
             '(st, v) <- stream_inspect st (s2b "?>") ;;
             if negb (0 <? v) then Ok None
             else consume_comments st d) ;;
  _ <- configure_encoding d ;;
  '(st, v) <- stream_inspect st (s2b "<!DOCTYPE") ;;
  if 0 <? v then
    '(st, _) <- get_until_ref st true [s2b ">"] ;;
    consume_comments st d
  else Ok (Some (st, d)).

(** the value given to doc->xmlPreserve for an attribute, axl_doc.c:1001-1032;
    [None] for a wrong xml:space value *)
Definition preserve_push (l : list bool) (name : bytes) (value : option bytes) : res (option (list bool)) :=
  s <- axl_cmp (Some (cs name)) (Some (cs (s2b "xml:space"))) ;;
  if (s : bool) then
    p <- axl_cmp (option_map cs value) (Some (cs (s2b "preserve"))) ;;
    if (p : bool) then Ok (Some (true :: l))
    else
      f <- axl_cmp (option_map cs value) (Some (cs (s2b "default"))) ;;
      if (f : bool) then Ok (Some (false :: l)) else Ok None
  else Ok (Some (hd false l :: l)).

(** the loop of __axl_doc_parse_node after the name, axl_doc.c:878-1046: whether the
    element is empty, and its attributes *)
Fixpoint attrs_loop (fuel : nat) (st : stream) (d : pdoc) (a : attrs)
  : res (option (stream * pdoc * attrs * bool)) :=
  match fuel with
  | O => NoFuel
  | S fuel' =>
    '(st, v) <- stream_inspect st (s2b "/>") ;;
    if 0 <? v then Ok (Some (st, d, a, true))
    else
      '(st, v) <- stream_inspect st (s2b ">") ;;
      if 0 <? v then Ok (Some (st, d, a, false))
      else
        st <- consume_spaces st ;;
        '(st, o) <- get_until st true [s2b "="] ;;
        match o with
        | None => Ok None
        | Some (name, _) =>
          let name := cstr name in
          match name with
          | [] => Ok None
          | _ =>
            '(st, v) <- stream_inspect st ["034"%char] ;;
            '(st, delim) <-!
              (if 0 <? v then Ok (Some (st, "034"%char))
               else
                 '(st, v) <- stream_inspect st ["039"%char] ;;
                 if 0 <? v then Ok (Some (st, "039"%char)) else Ok None) ;;
            '(st, o) <- get_until st true [[delim]] ;;
            let value := match o with None => None | Some (t, _) => Some (cstr t) end in
            h <- has_attribute a name ;;
            if (h : bool) then Ok None
            else
              '(a, _) <- set_attribute_core a name value true ;;
              p <- preserve_push (p_preserve d) name value ;;
              match p with
              | None => Ok None
              | Some l =>
                st <- consume_spaces st ;;
                attrs_loop fuel' st (with_preserve d l) a
              end
          end
        end
  end.

(** __axl_doc_parse_node, axl_doc.c:772-1050; the boolean is is_empty *)
Definition parse_node (st : stream) (d : pdoc) : res (option (stream * pdoc * bool)) :=
  '(st, d) <-! consume_comments st d ;;
  '(st, v) <- stream_inspect st (s2b "<") ;;
  '(st, go) <- (if 0 <? v then Ok (st, true) else stream_remains st) ;;
  if negb go then Ok None
  else
    '(st, o) <- get_until st true [s2b ">"; s2b " "] ;;
    match o with
    | None => Ok None
    | Some (name, matched) =>
      let name := cstr name in
      match name with
      | [] => Ok None
      | _ =>
        '(st, d, a, name, is_empty) <-!
          (if matched =? 1 then
             st <- consume_spaces st ;;
             '(st, d, a, e) <-! attrs_loop (turns st) st d no_attrs ;;
             Ok (Some (st, d, a, name, e))
           else
             c <- rd (cs name) (Z.of_nat (length name) - 1) ;;
             if Ascii.eqb c "/" then Ok (Some (st, d, no_attrs, removelast name, true))
             else Ok (Some (st, d, no_attrs, name, false))) ;;
        let n := Node name a [] in
        if (is_empty : bool) then Ok (Some (st, add_node d n, true))
        else Ok (Some (st, with_stack d (n :: p_stack d), false))
      end
    end.

(** __axl_doc_parse_close_node, axl_doc.c:1057-1110: whether the name fits *)
Definition parse_close_node (st : stream) (d : pdoc) : res (option stream) :=
  '(st, o) <- get_until_ref st true [s2b ">"] ;;
  match o with
  | None => Ok None
  | Some (text, _) =>
    c <- rd (cs text) (Z.of_nat (length text) - 1) ;;
    let text := if is_ws c then removelast text else text in
    match p_stack d with
    | [] => Ok None
    | n :: _ =>
      e <- axl_cmp (Some (cs (n_name n))) (Some (cs text)) ;;
      if (e : bool) then Ok (Some st) else Ok None
    end
  end.

(** the loop of __axl_doc_parse_common, axl_doc.c:1164-1290 *)
Fixpoint content_loop (fuel : nat) (st : stream) (d : pdoc) : res (option (stream * pdoc)) :=
  match fuel with
  | O => NoFuel
  | S fuel' =>
    '(st, more) <- stream_remains st ;;
    if negb more then Ok (Some (st, d))
    else
      let index := s_idx st in
      st <- (if hd false (p_preserve d) then Ok st else consume_spaces st) ;;
      '(st, v1) <- stream_peek st (s2b "<?") ;;
      '(st, v2) <- (if 0 <? v1 then Ok (st, 0) else stream_peek st (s2b "<!--")) ;;
      if (0 <? v1) || (0 <? v2) then
        '(st, d) <-! consume_comments st d ;;
        content_loop fuel' st d
      else
        '(st, v) <- stream_peek st (s2b "</") ;;
        if 0 <? v then
          let st := stream_accept st in
          match parse_close_node st d with
          | Ok (Some st) =>
            match p_stack d with
            | [] => Ok None
            | n :: r =>
              let d := add_node (with_stack d r) n in
              let d := with_preserve d (tl (p_preserve d)) in
              match r with
              | [] => Ok (Some (st, d))
              | _ => content_loop fuel' st d
              end
            end
          | Ok None => Ok None
          | UB => UB
          | NoFuel => NoFuel
          end
        else
          '(st, v) <- stream_peek st (s2b "<![CDATA[") ;;
          if 0 <? v then
            let st := stream_accept st in
            '(st, o) <- get_until st true [s2b "]]>"] ;;
            match o with
            | None => Ok None
            | Some (text, _) => content_loop fuel' st (add_item d (ICdata (cstr text)))
            end
          else
            '(st, v) <- stream_peek st (s2b "<") ;;
            if 0 <? v then
              let st := stream_accept st in
              '(st, d, _) <-! parse_node st d ;;
              content_loop fuel' st d
            else
              let st := if index <? s_idx st then stream_move st index else st in
              '(st, o) <- get_until st false [s2b "<"] ;;
              match o with
              | None => Ok None
              | Some (text, _) => content_loop fuel' st (add_item d (IContent (cstr text)))
              end
  end.

(** __axl_doc_parse_common, axl_doc.c:1118-1317 *)
Definition parse_common (st : stream) : res (option doc) :=
  match parse_xml_header st pdoc_new with
  | Ok (Some (st, d)) =>
    '(st, d, is_empty) <-! parse_node st (with_header d) ;;
    '(_, d) <-! (if (is_empty : bool) then Ok (Some (st, d)) else content_loop (turns st) st d) ;;
    match p_stack d with
    | [] => Ok (Some (Doc (p_root d) (p_encoding d) (p_standalone d) (p_pis d)))
    | _ => Ok None
    end
  | Ok None => Ok None
  | UB => UB
  | NoFuel => NoFuel
  end.
(** axl_doc_parse and axl_doc_parse_from_file, axl_doc.c:1849-1852 and 1916-1920 *)
Definition doc_parse (content : bytes) : res (option doc) := parse_common (stream_mem content).
Definition doc_parse_file (content : bytes) : res (option doc) :=
  st <- stream_file content ;; parse_common st.
