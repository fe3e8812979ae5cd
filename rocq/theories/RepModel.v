(** The document parser once more, src/axl_doc.c, with the memory it takes and gives back
    and the errors it reports (src/axl_error.c, src/axl_stream.c).

    The reading is that of ParseModel, word for word.  What is added is a book of the blocks
    handed out by the memory allocator: those of the stream, the last chunk handed out by
    it, the copies it makes for a diagnostic, local copies, the errors, and the document.
    Releasing a block that is not taken, releasing memory of the string pool of the document
    with free, and using the stream after its release are [UB].
    Simplifications: the document is one block holding all that hangs from it (C33, C40 and
    C59 are about what is inside), with the declared encoding as a second one; the list
    of linked elements is one block; growing a buffer keeps its block; an error is made of
    two blocks, and its text is kept in parts ([report]); the global index is left out; no
    encoding handler is installed. *)
From Verif Require Import Prelude StrModel AttrModel TreeModel StreamModel ParseModel.
Open Scope Z_scope.

(** what an axlError tells, axl_error.c:41-45 and 139-177: the code, the message, and for
    errors with a stream its size and index, the text around and the text that follows *)
Record report := Report {
  r_code : Z;
  r_text : bytes;
  r_where : option (Z * Z * bytes * bytes);
  r_blocks : list nat            (* the axlError and its text *)
}.

(** a pointer to a chunk: a block of its own, or memory of doc->str_factory *)
Inductive ptr := Heap (b : nat) | Pool.

Record book := Book {
  live : list nat;               (* blocks taken and not released *)
  next : nat;                    (* the block to come *)
  own : list nat;                (* the stream, its buffers and its list of linked elements *)
  last : option ptr;             (* stream->last_chunk *)
  near : option nat;             (* stream->last_near_to *)
  follow : option nat;           (* stream->last_get_following *)
  pool : bool;                   (* stream->alloc is set *)
  linked : bool;                 (* the document is released with the stream *)
  document : list nat;           (* the document and doc->encoding *)
  wanted : bool;                 (* the caller gave an axlError ** *)
  reports : list report          (* the errors stored there, the newest first *)
}.
Definition with_live (m : book) l n : book :=
  Book l n (own m) (last m) (near m) (follow m) (pool m) (linked m) (document m) (wanted m) (reports m).
Definition with_last (m : book) p : book :=
  Book (live m) (next m) (own m) p (near m) (follow m) (pool m) (linked m) (document m) (wanted m) (reports m).
Definition with_near (m : book) p : book :=
  Book (live m) (next m) (own m) (last m) p (follow m) (pool m) (linked m) (document m) (wanted m) (reports m).
Definition with_follow (m : book) p : book :=
  Book (live m) (next m) (own m) (last m) (near m) p (pool m) (linked m) (document m) (wanted m) (reports m).
Definition with_pool (m : book) b : book :=
  Book (live m) (next m) (own m) (last m) (near m) (follow m) b (linked m) (document m) (wanted m) (reports m).
Definition with_own (m : book) o : book :=
  Book (live m) (next m) o (last m) (near m) (follow m) (pool m) (linked m) (document m) (wanted m) (reports m).
Definition with_document (m : book) l d : book :=
  Book (live m) (next m) (own m) (last m) (near m) (follow m) (pool m) l d (wanted m) (reports m).
Definition with_reports (m : book) r : book :=
  Book (live m) (next m) (own m) (last m) (near m) (follow m) (pool m) (linked m) (document m) (wanted m) r.

(** calloc and free *)
Definition take (m : book) : book * nat := (with_live m (next m :: live m) (S (next m)), next m).
Definition release (m : book) (b : nat) : res book :=
  if existsb (Nat.eqb b) (live m) then Ok (with_live m (remove Nat.eq_dec b (live m)) (next m)) else UB.
Fixpoint releases (m : book) (l : list nat) : res book :=
  match l with
  | [] => Ok m
  | b :: l => m <- release m b ;; releases m l
  end.
Fixpoint takes (m : book) (n : nat) : book * list nat :=
  match n with
  | O => (m, [])
  | S n => let '(m, b) := take m in let '(m, l) := takes m n in (m, b :: l)
  end.
(** free, which does nothing with NULL *)
Definition release_opt (m : book) (o : option nat) : res book :=
  match o with None => Ok m | Some b => release m b end.
(** the stream is used *)
Definition touch (m : book) : res unit :=
  match own m with
  | self :: _ => if existsb (Nat.eqb self) (live m) then Ok tt else UB
  | [] => UB
  end.

(** axl_stream_new, axl_stream.c:528-594: the stream, its buffer, the tables of chunks and
    lengths, and for a file the second buffer *)
Definition stream_new (m : book) (file : bool) : book :=
  let '(m, l) := takes m (if file then 5%nat else 4%nat) in with_own m l.
(** __axl_doc_new and axl_stream_link, axl_doc.c:438-472 and axl_stream.c:1782-1838 *)
Definition doc_new (m : book) : book := let '(m, b) := take m in with_document m (linked m) [b].
Definition link (m : book) : book :=
  let '(m, b) := take m in with_document (with_own m (own m ++ [b])) true (document m).
(** axl_stream_unlink, axl_stream.c:1845-1866 *)
Definition unlink (m : book) : res book := _ <- touch m ;; Ok (with_document m false (document m)).
(** axl_doc_free, axl_doc.c:3264-3316: everything at once *)
Definition doc_free (m : book) : res book := m <- releases m (document m) ;; Ok (with_document m false []).
(** free on a chunk *)
Definition release_chunk (m : book) : res book :=
  match last m with
  | None => Ok m
  | Some Pool => UB
  | Some (Heap b) => m <- release m b ;; Ok (with_last m None)
  end.
(** axl_stream_free, axl_stream.c:1869-1910; the buffer and the tables go with the stream *)
Definition stream_free (m : book) : res book :=
  _ <- touch m ;;
  m <- (if linked m then doc_free m else Ok m) ;;
  m <- release_chunk m ;;
  m <- release_opt m (near m) ;;
  m <- release_opt m (follow m) ;;
  m <- releases m (own m) ;;
  Ok (with_own (with_near (with_follow m None) None) []).

(** axl_stream_nullify with LAST_CHUNK, axl_stream.c:1250-1273 *)
Definition nullify (m : book) : res book := _ <- touch m ;; Ok (with_last m None).
(** axl_stream_set_buffer_alloc, axl_stream.c:1220-1231 *)
Definition set_alloc (m : book) (b : bool) : res book := _ <- touch m ;; Ok (with_pool m b).

(** axl_stream_get_following, axl_stream.c:1700-1727, with a positive count *)
Definition get_following (m : book) (st : stream) (count : Z) : res (book * bytes) :=
  _ <- touch m ;;
  if s_size st <=? s_idx st then Ok (m, [])
  else
    let count := if s_size st <? count + s_idx st then s_size st - s_idx st else count in
    m <- release_opt m (follow m) ;;
    let '(m, b) := take m in
    t <- mem_sub (s_buf st) (s_idx st) count ;;
    Ok (with_follow m (Some b), cstr t).
(** axl_stream_get_near_to, axl_stream.c:1659-1688 *)
Definition get_near_to (m : book) (st : stream) (count : Z) : res (book * bytes) :=
  _ <- touch m ;;
  let first := if s_idx st - count <=? 0 then 0 else s_idx st - count in
  let size := if s_size st - 1 <=? s_idx st + count then s_size st - first else s_idx st + count - first in
  m <- release_opt m (near m) ;;
  let '(m, b) := take m in
  t <- mem_sub (s_buf st) first size ;;
  Ok (with_near m (Some b), cstr t).

(** axl_error_new, axl_error.c:139-177, with a stream: the error takes the place of what
    the caller's variable held *)
Definition error_new (m : book) (st : stream) (code : Z) (text : bytes) : res book :=
  if wanted m then
    let '(m, b) := take m in
    '(m, f) <- get_following m st 10 ;;
    '(m, n) <- get_near_to m st 10 ;;
    let '(m, c) := take m in
    Ok (with_reports m (Report code text (Some (s_size st, s_idx st, n, f)) [b; c] :: reports m))
  else Ok m.
(** axl_error_new without a stream *)
Definition error_plain (m : book) (code : Z) (text : bytes) : book :=
  if wanted m then
    let '(m, b) := take m in
    let '(m, c) := take m in
    with_reports m (Report code text None [b; c] :: reports m)
  else m.
(** axl_error_report, axl_error.c:195-231, as called at axl_doc.c:984: its arguments are
    evaluated first *)
Definition error_report (m : book) (st : stream) (code : Z) (text : bytes) : res book :=
  '(m, n) <- get_near_to m st 100 ;;
  if wanted m then
    let '(m, c) := take m in
    let '(m, b) := take m in
    Ok (with_reports m (Report code text (Some (s_size st, s_idx st, n, [])) [b; c] :: reports m))
  else Ok m.
(** axl_error_free, axl_error.c:307-319 *)
Definition error_free (m : book) (r : report) : res book := releases m (rev (r_blocks r)).
(** axl_error_was_ok and axl_error_get_code, axl_error.c:250-278, on the caller's variable *)
Definition error_was_ok (m : book) : bool := match reports m with [] => true | _ => false end.
Definition error_get_code (m : book) : Z := match reports m with [] => -1 | r :: _ => r_code r end.

(** the end of every failing path: axl_error_new, axl_stream_free, return *)
Definition fail {A} (m : book) (st : stream) (code : Z) (text : bytes) : res (book * option A) :=
  m <- error_new m st code text ;; m <- stream_free m ;; Ok (m, None).

(** axl_stream_get_until, axl_stream.c:994-1017, and what happens to the last chunk when a
    terminator is found, 1478-1521 *)
Definition take_until (m : book) (st : stream) (accept : bool) (chunks : list bytes)
  : res (book * stream * option (bytes * Z)) :=
  _ <- touch m ;;
  '(st, o) <- get_until st accept chunks ;;
  match o with
  | None => Ok (m, st, None)
  | Some _ =>
    m <- release_chunk m ;;
    if pool m then Ok (with_last m (Some Pool), st, o)
    else let '(m, b) := take m in Ok (with_last m (Some (Heap b)), st, o)
  end.
(** axl_stream_get_until_ref, axl_stream.c:1071-1096.  The last chunk is released when a
    terminator is found, which is when [get_until], the same loop, finds it. *)
Definition take_until_ref (m : book) (st : stream) (accept : bool) (chunks : list bytes)
  : res (book * stream * option (bytes * Z)) :=
  _ <- touch m ;;
  '(_, found) <- get_until st accept chunks ;;
  '(st, o) <- get_until_ref st accept chunks ;;
  m <- (match found with None => Ok m | Some _ => release_chunk m end) ;;
  Ok (m, st, o).

(** [x <-? e ;; k]: go on unless an error was reported *)
Definition bindm {A B} (r : res (book * option A)) (k : book * A -> res (book * option B)) : res (book * option B) :=
  match r with
  | Ok (m, Some a) => k (m, a)
  | Ok (m, None) => Ok (m, None)
  | UB => UB
  | NoFuel => NoFuel
  end.
Notation "' p <-? e ;; k" := (bindm e (fun p => k)) (at level 61, p pattern, e at next level, right associativity).

(** axl_doc_consume_pi, axl_doc.c:3414-3517 *)
Definition consume_pi (m : book) (st : stream) (d : pdoc) : res (book * option (stream * pdoc)) :=
  '(st, v) <- stream_peek st (s2b "<?") ;;
  if 0 <? v then
    let st := stream_accept st in
    '(m, st, o) <- take_until m st true [s2b " ?>"; s2b "?>"; s2b " "] ;;
    match o with
    | None => fail m st (-1) (s2b "Found a error while reading the PI target name")
    | Some (target, matched) =>
      let target := cstr target in
      let '(m, copy) := take m in
      x <- axl_cmp (Some (cs (map to_lower target))) (Some (cs (s2b "xml"))) ;;
      if (x : bool) then
        m <- release m copy ;;
        fail m st (-1) (s2b "Using a reserved PI target name (xml), not allowed")
      else
        m <- release m copy ;;
        if (matched =? 0) || (matched =? 1) then Ok (m, Some (st, add_pi d (Pi target None)))
        else if matched =? 2 then
          let '(m, name) := take m in
          '(m, st, o) <- take_until m st true [s2b " ?>"; s2b "?>"] ;;
          match o with
          | None =>
            m <- release m name ;;
            fail m st (-1) (s2b "Found a error while reading the PI content")
          | Some (content, _) =>
            m <- release m name ;;
            Ok (m, Some (st, add_pi d (Pi target (Some (cstr content)))))
          end
        else fail m st (-1) (s2b "Found a error while reading the PI target name, unable to find PI terminator ?>")
    end
  else Ok (m, Some (st, d)).

(** axl_doc_consume_comments, axl_doc.c:3327-3396 *)
Fixpoint comments_loop (fuel : nat) (m : book) (st : stream) (d : pdoc) : res (book * option (stream * pdoc)) :=
  match fuel with
  | O => NoFuel
  | S fuel' =>
    st <- consume_spaces st ;;
    '(st, v) <- stream_inspect st (s2b "<!--") ;;
    '(m, (st, d, found)) <-?
      (if 0 <? v then
         '(m, st, o) <- take_until_ref m st true [s2b "-->"] ;;
         match o with
         | None => fail m st (-1) (s2b "detected an opened comment but not found the comment ending")
         | Some (content, _) => Ok (m, Some (st, add_item d (IComment content), true))
         end
       else Ok (m, Some (st, d, false))) ;;
    st <- consume_spaces st ;;
    '(st, v) <- (if p_header d then stream_peek st (s2b "<?") else Ok (st, 0)) ;;
    '(m, (st, d, found)) <-?
      (if 0 <? v then
         '(m, (st, d)) <-? consume_pi m st d ;; Ok (m, Some (st, d, true))
       else Ok (m, Some (st, d, found))) ;;
    if (found : bool) then comments_loop fuel' m st d
    else (st <- consume_spaces st ;; Ok (m, Some (st, d)))
  end.
Definition consume_comments (m : book) (st : stream) (d : pdoc) : res (book * option (stream * pdoc)) :=
  comments_loop (turns st) m st d.

(** axl_doc_configure_encoding, axl_doc.c:524-575, with no handler: the copy of the name is
    made and released *)
Definition copy_encoding (m : book) (d : pdoc) : res book :=
  match p_encoding d with
  | None => Ok m
  | Some _ =>
    let '(m, b) := take m in
    _ <- configure_encoding d ;;
    release m b
  end.

(** doc->encoding = string_aux, axl_doc.c:669-670 *)
Definition keep_encoding (m : book) : res book :=
  match last m with
  | Some (Heap b) => Ok (with_last (with_document m (linked m) (document m ++ [b])) None)
  | _ => UB
  end.

(** __axl_doc_parse_xml_header, axl_doc.c:597-731 *)
Definition parse_xml_header (m : book) (st : stream) (d : pdoc) : res (book * option (stream * pdoc)) :=
  if p_header d then
    fail m st (-1) (s2b "Found a new xml header expecification. Only one header is allowed for each xml document.")
  else
  bom <- stream_check st ["239"; "187"; "191"]%char ;;
  let st := if (bom : bool) then stream_move st 3 else st in
  '(st, v) <- stream_inspect st (s2b "<?") ;;
  '(m, (st, d)) <-?
    (if v =? 0 then Ok (m, Some (st, d))
     else
       '(st, v) <- stream_inspect st (s2b "xml") ;;
       if negb (0 <? v) then fail m st (-2) (s2b "expected initial <?xml declaration, not found.")
       else
         st <- consume_spaces st ;;
         '(st, v) <- stream_inspect st (s2b "version=") ;;
         if v =? 0 then fail m st (-2) (s2b "expected to find 'version=' declaration, not found.")
         else
           st <- consume_spaces st ;;
           '(st, v) <- stream_inspect_several st
              [["034"; "1"; "."; "0"; "034"]%char; ["039"; "1"; "."; "0"; "039"]%char] ;;
           if v =? 0 then
             fail m st (-2) (s2b "expected to find either "" or ' while procesing version number, not found.")
           else
             st <- consume_spaces st ;;
             '(st, v) <- stream_inspect_several st (quoted (s2b "encoding=")) ;;
             '(m, (st, d)) <-?
               (if 0 <? v then
                  '(m, st, o) <- take_until m st true quotes ;;
                  match o with
                  | None => fail m st (-2) (s2b "expected encoding value, not found.")
                  | Some (e, _) =>
                    _ <- touch m ;;
                    m <- keep_encoding m ;;
                    Ok (m, Some (st, with_encoding d (Some (cstr e))))
                  end
                else Ok (m, Some (st, d))) ;;
             st <- consume_spaces st ;;
             '(st, v) <- stream_inspect_several st (quoted (s2b "standalone=")) ;;
             '(m, (st, d)) <-?
               (if 0 <? v then
                  '(m, st, o) <- take_until m st true quotes ;;
                  match o with
                  | None => fail m st (-2) (s2b "expected to receive standalone value, not found.")
                  | Some (e, _) => y <- is_yes e ;; Ok (m, Some (st, with_standalone d y))
                  end
                else Ok (m, Some (st, d))) ;;
             st <- consume_spaces st ;;
             '(st, v) <- stream_inspect st (s2b "?>") ;;
             if negb (0 <? v) then
               fail m st (-2) (s2b "expected to receive the xml trailing header ?>, not found.")
             else consume_comments m st d) ;;
  m <- copy_encoding m d ;;
  '(st, v) <- stream_inspect st (s2b "<!DOCTYPE") ;;
  if 0 <? v then
    '(m, st, _) <- take_until_ref m st true [s2b ">"] ;;
    consume_comments m st d
  else Ok (m, Some (st, d)).

(** the loop of __axl_doc_parse_node after the name, axl_doc.c:878-1046 *)
Fixpoint attrs_loop (fuel : nat) (m : book) (st : stream) (d : pdoc) (a : attrs)
  : res (book * option (stream * pdoc * attrs * bool)) :=
  match fuel with
  | O => NoFuel
  | S fuel' =>
    '(st, v) <- stream_inspect st (s2b "/>") ;;
    if 0 <? v then (m <- set_alloc m false ;; Ok (m, Some (st, d, a, true)))
    else
      '(st, v) <- stream_inspect st (s2b ">") ;;
      if 0 <? v then (m <- set_alloc m false ;; Ok (m, Some (st, d, a, false)))
      else
        st <- consume_spaces st ;;
        '(m, st, o) <- take_until m st true [s2b "="] ;;
        match o with
        | None => fail m st (-2) (s2b "Parse error while reading a node being opened")
        | Some (name, _) =>
          m <- nullify m ;;
          let name := cstr name in
          match name with
          | [] => fail m st (-5) (s2b "Expected to find an attribute name (but found an empty value)")
          | _ =>
            '(st, v) <- stream_inspect st ["034"%char] ;;
            '(m, (st, delim)) <-?
              (if 0 <? v then Ok (m, Some (st, "034"%char))
               else
                 '(st, v) <- stream_inspect st ["039"%char] ;;
                 if 0 <? v then Ok (m, Some (st, "039"%char))
                 else
                   m <- set_alloc m false ;;
                   fail m st (-2) (s2b "Expected to find an attribute value initiator ("") or ('), every attribute value must start with them")) ;;
            '(m, st, o) <- take_until m st true [[delim]] ;;
            m <- nullify m ;;
            let value := match o with None => None | Some (t, _) => Some (cstr t) end in
            h <- has_attribute a name ;;
            if (h : bool) then
              m <- error_report m st (-3) (s2b "Unable to add attribute '%s' to node <%s> which already has this attribute. Duplicate attribute error. Error was found near to: %s") ;;
              m <- stream_free m ;; Ok (m, None)
            else
              '(a, _) <- set_attribute_core a name value true ;;
              p <- preserve_push (p_preserve d) name value ;;
              match p with
              | None => fail m st (-2) (s2b "xml:space attribute found with other value than 'preserve' or 'default', this is not allowed.")
              | Some l =>
                st <- consume_spaces st ;;
                attrs_loop fuel' m st (with_preserve d l) a
              end
          end
        end
  end.

(** doc->rootNode == NULL *)
Definition no_root (d : pdoc) : bool :=
  match p_root d, p_stack d with None, [] => true | _, _ => false end.
(** the message of axl_doc.c:831 *)
Definition no_name : bytes := s2b "expected an non empty content for the node name not found.".

(** __axl_doc_parse_node, axl_doc.c:772-1050 *)
Definition parse_node (m : book) (st : stream) (d : pdoc) : res (book * option (stream * pdoc * bool)) :=
  '(m, (st, d)) <-? consume_comments m st d ;;
  '(st, v) <- stream_inspect st (s2b "<") ;;
  '(st, go) <- (if 0 <? v then Ok (st, true) else stream_remains st) ;;
  if negb go then
    fail m st (-2) (if no_root d then s2b "expected initial < for a root node definition, not found. An xml document must have, at least, one node definition."
                    else s2b "expected initial < for a node definition, not found.")
  else
    m <- set_alloc m true ;;
    '(m, st, o) <- take_until m st true [s2b ">"; s2b " "] ;;
    m <- nullify m ;;
    match o with
    | None => m <- set_alloc m false ;; fail m st (-2) no_name
    | Some (name, matched) =>
      let name := cstr name in
      match name with
      | [] => m <- set_alloc m false ;; fail m st (-2) no_name
      | _ =>
        '(m, (st, d, a, name, is_empty)) <-?
          (if matched =? 1 then
             st <- consume_spaces st ;;
             '(m, (st, d, a, e)) <-? attrs_loop (turns st) m st d no_attrs ;;
             Ok (m, Some (st, d, a, name, e))
           else
             c <- rd (cs name) (Z.of_nat (length name) - 1) ;;
             m <- set_alloc m false ;;
             if Ascii.eqb c "/" then Ok (m, Some (st, d, no_attrs, removelast name, true))
             else Ok (m, Some (st, d, no_attrs, name, false))) ;;
        let n := Node name a [] in
        if (is_empty : bool) then Ok (m, Some (st, add_node d n, true))
        else Ok (m, Some (st, with_stack d (n :: p_stack d), false))
      end
    end.

(** __axl_doc_parse_close_node, axl_doc.c:1057-1110 *)
Definition parse_close_node (m : book) (st : stream) (d : pdoc) : res (book * option stream) :=
  '(m, st, o) <- take_until_ref m st true [s2b ">"] ;;
  match o with
  | None => fail m st (-1) (s2b "An error was found while closing the xml node")
  | Some (text, _) =>
    c <- rd (cs text) (Z.of_nat (length text) - 1) ;;
    let text := if is_ws c then removelast text else text in
    match p_stack d with
    | [] => fail m st (-1) (s2b "Found that the stack doesn't have any node opened, this means either an libaxl error or the xml being read is closing a node not opened")
    | n :: _ =>
      e <- axl_cmp (Some (cs (n_name n))) (Some (cs text)) ;;
      if (e : bool) then Ok (m, Some st)
      else fail m st (-1) (s2b "An error was found while closing the opened xml node, parent opened and xml node being closed doesn't match")
    end
  end.

(** the loop of __axl_doc_parse_common, axl_doc.c:1164-1290 *)
Fixpoint content_loop (fuel : nat) (m : book) (st : stream) (d : pdoc) : res (book * option (stream * pdoc)) :=
  match fuel with
  | O => NoFuel
  | S fuel' =>
    '(st, more) <- stream_remains st ;;
    if negb more then Ok (m, Some (st, d))
    else
      let index := s_idx st in
      st <- (if hd false (p_preserve d) then Ok st else consume_spaces st) ;;
      '(st, v1) <- stream_peek st (s2b "<?") ;;
      '(st, v2) <- (if 0 <? v1 then Ok (st, 0) else stream_peek st (s2b "<!--")) ;;
      if (0 <? v1) || (0 <? v2) then
        '(m, (st, d)) <-? consume_comments m st d ;;
        content_loop fuel' m st d
      else
        '(st, v) <- stream_peek st (s2b "</") ;;
        if 0 <? v then
          let st := stream_accept st in
          '(m, st) <-? parse_close_node m st d ;;
          match p_stack d with
          | [] => UB             (* not reached: a close without an open node has failed *)
          | n :: r =>
            let d := add_node (with_stack d r) n in
            let d := with_preserve d (tl (p_preserve d)) in
            match r with
            | [] => Ok (m, Some (st, d))
            | _ => content_loop fuel' m st d
            end
          end
        else
          '(st, v) <- stream_peek st (s2b "<![CDATA[") ;;
          if 0 <? v then
            let st := stream_accept st in
            m <- set_alloc m true ;;
            '(m, st, o) <- take_until m st true [s2b "]]>"] ;;
            m <- set_alloc m false ;;
            match o with
            | None => fail m st (-1) (s2b "Unable to get CDATA content. There was an error.")
            | Some (text, _) =>
              m <- nullify m ;;
              content_loop fuel' m st (add_item d (ICdata (cstr text)))
            end
          else
            '(st, v) <- stream_peek st (s2b "<") ;;
            if 0 <? v then
              let st := stream_accept st in
              '(m, (st, d, _)) <-? parse_node m st d ;;
              content_loop fuel' m st d
            else
              let st := if index <? s_idx st then stream_move st index else st in
              m <- set_alloc m true ;;
              '(m, st, o) <- take_until m st false [s2b "<"] ;;
              m <- set_alloc m false ;;
              match o with
              | None => fail m st (-1) (s2b "an error was found while reading the xml node content")
              | Some (text, _) =>
                m <- nullify m ;;
                content_loop fuel' m st (add_item d (IContent (cstr text)))
              end
  end.

(** __axl_doc_parse_common, axl_doc.c:1118-1317, once the stream is made; on success the
    book holds the document *)
Definition parse_common (m : book) (st : stream) : res (book * option doc) :=
  let m := link (doc_new m) in
  '(m, (st, d)) <-? parse_xml_header m st pdoc_new ;;
  '(m, (st, d, is_empty)) <-? parse_node m st (with_header d) ;;
  '(m, (st, d)) <-? (if (is_empty : bool) then Ok (m, Some (st, d)) else content_loop (turns st) m st d) ;;
  match p_stack d with
  | [] =>
    m <- unlink m ;;
    m <- stream_free m ;;
    Ok (m, Some (Doc (p_root d) (p_encoding d) (p_standalone d) (p_pis d)))
  | _ => fail m st (-1) (s2b "XML document is not balanced, still remains xml nodes")
  end.

(** a call: nothing is taken before; [want] tells whether the caller gave a variable for
    the error *)
Definition book_new (want : bool) : book := Book [] 0 [] None None None false false [] want [].
(** axl_doc_parse, axl_doc.c:1849-1852, and axl_doc_parse_from_file, 1916-1920, for a file
    that is there ([Some]) or can not be opened ([None], axl_stream.c:538-545) *)
Definition doc_parse (want : bool) (content : bytes) : res (book * option doc) :=
  parse_common (stream_new (book_new want) false) (stream_mem content).
Definition doc_parse_file (want : bool) (file : option bytes) : res (book * option doc) :=
  match file with
  | None => Ok (error_plain (book_new want) (-1) (s2b "unable to read file provided"), None)
  | Some content => st <- stream_file content ;; parse_common (stream_new (book_new want) true) st
  end.
