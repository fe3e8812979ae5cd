(** Loading of a DTD: src/axl_dtd.c over StreamModel.

    A function that reports an error and returns false (or NULL) yields [None].
    Simplifications: the lists of the DTD are Coq lists (C01) and the stack of opened
    item lists a list, innermost first (C07); a nested item list is attached to its
    parent when it is closed, not when it is opened (only the innermost list is looked
    at in between); an attribute declaration is added to its list when it is complete,
    not when its name has been read (the search for an ID declaration includes it,
    and an error discards the DTD); a text that is kept is its C string ([cstr]), on
    which axl_cmp is [bytes_eqb] (C17); the memory left behind by errors is not
    represented. *)
From Verif Require Import Prelude StrModel StreamModel ParseModel DtdModel DtdDocModel.
Open Scope Z_scope.

(** ** Content specifications *)
(** an item list that is being read: struct _axlDtdElementList, axl_dtd.c:68-83; its
    times is DTD_TIMES_UNKNOWN until it is closed (axl_new clears the memory) *)
Record open := Open { o_ty : nested; o_t : times; o_ps : list part }.
Definition open_new : open := Open Undef TUnknown [].
Definition add_part (o : open) (p : part) : open := Open (o_ty o) (o_t o) (o_ps o ++ [p]).
Definition closed (o : open) : part := Group (o_ty o) (o_t o) (o_ps o).

(** a chain of  if (axl_stream_inspect (stream, c, n) > 0) ... else if ... *)
Fixpoint which {A} (st : stream) (l : list (bytes * A)) (d : A) : res (stream * A) :=
  match l with
  | [] => Ok (st, d)
  | (c, v) :: l => '(st, r) <- stream_inspect st c ;; if 0 <? r then Ok (st, v) else which st l d
  end.

(** __axl_dtd_element_content_particule_add, axl_dtd.c:574-620: the times of a name *)
Definition times_of (chunk : Z) : times :=
  if chunk =? 4 then TPlus else if chunk =? 5 then TMany else if chunk =? 6 then TOpt else TOne.
(** __axl_dtd_get_repetition_conf, axl_dtd.c:634-661 *)
Definition repetition (st : stream) : res (stream * times) :=
  which st [(s2b "?", TOpt); (s2b "+", TPlus); (s2b "*", TMany)] TOne.
(** __axl_dtd_element_spec_update_chunk_matched, axl_dtd.c:709-745 *)
Definition update_chunk (st : stream) (chunk : Z) : res (stream * Z) :=
  which st [(s2b ",", 1); (s2b "|", 2); (s2b ")", 3); (s2b "+", 4); (s2b "*", 5); (s2b "?", 6)] chunk.
(** __axl_dtd_element_spec_update_chunk_matched_for_cp_separator, axl_dtd.c:754-781;
    [None] when it returns false *)
Definition update_separator (st : stream) : res (option (stream * Z)) :=
  st <- consume_spaces st ;;
  '(st, o) <- which st [(s2b ",", Some 1); (s2b "|", Some 2); (s2b ")", Some 3)] None ;;
  Ok (match o with Some c => Some (st, c) | None => None end).
(** the separators of __axl_dtd_read_content_particule, axl_dtd.c:788-831 *)
Definition particle_stops : list bytes := [s2b " "; s2b ","; s2b "|"; s2b ")"; s2b "+"; s2b "*"; s2b "?"; s2b "("].
(** the type of the list after a separator, axl_dtd.c:965-989; [None] is the error *)
Definition retype (ty : nested) (chunk : Z) : option nested :=
  if chunk =? 1 then match ty with Choice => None | _ => Some Sequence end
  else if chunk =? 2 then match ty with Sequence => None | _ => Some Choice end
  else Some ty.
(** the inner loop, axl_dtd.c:1003-1049: the current list is closed, and its parents as
    long as further ")" follow *)
Fixpoint close_loop (st : stream) (chunk : Z) (cur : open) (stack : list open) : res (stream * Z * open * list open) :=
  st <- consume_spaces st ;;
  '(st, t) <- repetition st ;;
  let cur := Open (o_ty cur) t (o_ps cur) in
  st <- consume_spaces st ;;
  '(st, chunk) <- which st [(s2b ",", 1); (s2b "|", 2)] chunk ;;
  match stack with
  | [] =>
    st <- consume_spaces st ;;
    '(st, _) <- stream_inspect st (s2b ")") ;;
    Ok (st, chunk, cur, [])
  | up :: stack =>
    let up := add_part up (closed cur) in
    st <- consume_spaces st ;;
    '(st, v) <- stream_inspect st (s2b ")") ;;
    if 0 <? v then close_loop st chunk up stack else Ok (st, chunk, up, stack)
  end.
(** the type of the element, axl_dtd.c:993-998 *)
Definition pcdata : bytes := s2b "#PCDATA".
Definition retype_element (ty : el_type) (chunk : Z) (x : bytes) (items : nat) : el_type :=
  if (chunk =? 3) && bytes_eqb x pcdata then
    if Nat.eqb items 1 then TPcdata else if Nat.ltb 1 items then TMixed else ty
  else ty.
(** the loop of __axl_dtd_read_element_spec, axl_dtd.c:893-1058.  After "(" the stack is
    not empty, so that the loop goes on whatever chunk_matched is. *)
Fixpoint spec_loop (fuel : nat) (st : stream) (ty : el_type) (cur : open) (stack : list open) : res (option (stream * (el_type * part))) :=
  match fuel with
  | O => NoFuel
  | S fuel =>
    st <- consume_spaces st ;;
    '(st, v) <- stream_inspect st (s2b "(") ;;
    if 0 <? v then spec_loop fuel st ty open_new (cur :: stack)
    else
      '(st, o) <- get_until st true particle_stops ;;
      match o with
      | None => Ok None
      | Some (x, chunk) =>
        if chunk =? 8 then Ok None
        else
          let x := cstr x in
          '(st, chunk) <- (if chunk =? 0 then st <- consume_spaces st ;; update_chunk st chunk else Ok (st, chunk)) ;;
          let cur := add_part cur (Leaf x (times_of chunk)) in
          '(st, chunk) <-! (if (chunk =? 4) || (chunk =? 5) || (chunk =? 6) then update_separator st else Ok (Some (st, chunk))) ;;
          match retype (o_ty cur) chunk with
          | None => Ok None
          | Some nt =>
            let cur := Open nt (o_t cur) (o_ps cur) in
            let ty := retype_element ty chunk x (length (o_ps cur)) in
            '(st, chunk, cur, stack) <- (if chunk =? 3 then close_loop st chunk cur stack else Ok (st, chunk, cur, stack)) ;;
            if negb (chunk =? 3) || match stack with [] => false | _ => true end then spec_loop fuel st ty cur stack
            else Ok (Some (st, (ty, Group (match o_ty cur with Undef => Sequence | nt => nt end) (o_t cur) (o_ps cur))))
          end
      end
  end.
(** __axl_dtd_read_element_spec, axl_dtd.c:846-1082 *)
Definition read_spec (st : stream) : res (option (stream * (el_type * part))) :=
  st <- consume_spaces st ;;
  '(st, v) <- stream_inspect st (s2b "(") ;;
  if v =? 0 then Ok None else spec_loop (turns st) st TChildren open_new [].

(** ** Declarations *)
(** struct _axlDtd while loading, axl_dtd.c:204-240 *)
Record load := Load { l_elements : list el_decl; l_attrs : list (bytes * list at_decl); l_entities : list entity; l_id : bool; l_idref : bool }.
(** __axl_dtd_new, axl_dtd.c *)
Definition load_new : load := Load [] [] [] false false.

(** __axl_dtd_parse_element, axl_dtd.c:1160-1263, with __axl_dtd_add_element, 531-558: an
    element declared twice is an error *)
Definition parse_element (st : stream) (l : load) : res (option (stream * load)) :=
  st <- consume_spaces st ;;
  '(st, v) <- stream_inspect st (s2b "<!ELEMENT") ;;
  if negb (0 <? v) then Ok None
  else
    st <- consume_spaces st ;;
    '(st, o) <- get_until st false [s2b ">"; s2b "("; s2b " "] ;;
    match o with
    | None => Ok None
    | Some (name, m) =>
      if (m =? 0) || (m =? 3) then Ok None
      else
        let name := cstr name in
        st <- consume_spaces st ;;
        '(st, v) <- stream_peek st (s2b "EMPTY") ;;
        '(st, (ty, p)) <-!
          (if 0 <? v then Ok (Some (stream_accept st, (TEmpty, None)))
           else
             '(st, v) <- stream_peek st (s2b "ANY") ;;
             if 0 <? v then Ok (Some (stream_accept st, (TAny, None)))
             else
               '(st, (ty, p)) <-! read_spec st ;; Ok (Some (st, (ty, Some p)))) ;;
        if existsb (fun e => bytes_eqb (el_name e) name) (l_elements l) then Ok None
        else
          st <- consume_spaces st ;;
          '(st, v) <- stream_inspect st (s2b ">") ;;
          if v =? 0 then Ok None
          else
            let e := ElDecl name ty p (match p with Some p => compulsory_num p | None => 0%nat end) in
            Ok (Some (st, Load (l_elements l ++ [e]) (l_attrs l) (l_entities l) (l_id l) (l_idref l)))
    end.

(** axl_stream_push, axl_stream.c:837-898.  stream->temp is not represented: when it is
    used it holds at least buffer_size + 1 bytes.  [content] is given without its
    terminator, [size] being its length. *)
Definition stream_push (st : stream) (content : bytes) : res stream :=
  let n := Z.of_nat (length content) in
  let left := s_size st - s_idx st in
  rest <- mem_sub (s_buf st) (s_idx st) left ;;
  '(b, bufsize) <-
    (if s_size st <? left + n then Ok (content ++ rest ++ [NUL], left + n)
     else (b <- memcpy_to (s_buf st) 0 (content ++ rest) ;; Ok (b, s_bufsize st))) ;;
  Ok (stream_accept (Stream (s_kind st) b bufsize (left + n) 0 (s_prev st))).
(** axl_dtd_check_entity_ref_and_expand, axl_dtd.c:1347-1391, with
    __axl_dtd_entity_resolver, 1396-1400 *)
Definition expand (st : stream) (ents : list entity) : res (option stream) :=
  let index := s_idx st in
  '(st, v) <- stream_inspect st (s2b "%") ;;
  if negb (0 <? v) then Ok (Some st)
  else
    '(st, o) <- get_until st true [s2b ";"] ;;
    match o with
    | None => Ok None
    | Some (name, _) =>
      match entity_value ents (cstr name) EParameter with
      | None => Ok (Some (stream_move st index))
      | Some value => st <- stream_push (stream_accept st) (value ++ s2b " ") ;; Ok (Some st)
      end
    end.
(** __axl_dtd_parse_enumvalues, axl_dtd.c:1402-1428 *)
Fixpoint trim_all (l : list bytes) : res (list bytes) :=
  match l with
  | [] => Ok []
  | x :: l => '(b, _) <- stream_trim_with_size (cs x) ;; l <- trim_all l ;; Ok (cstr b :: l)
  end.
Definition enum_values (x : bytes) : res (list bytes) :=
  a <- stream_split (cs x) [cs (s2b "|")] ;; l <- strv a ;; trim_all l.
(** the type of an attribute, axl_dtd.c:1527-1578; after NOTATION it stays unset *)
Definition att_types : list (bytes * option at_type) :=
  [(s2b "NOTATION", Some (AOther KUnset)); (s2b "(", Some (AEnum [])); (s2b "CDATA", Some ACdata); (s2b "IDREFS", Some (AOther KIdrefs));
   (s2b "IDREF", Some AIdref); (s2b "ID", Some AId); (s2b "ENTITY", Some (AOther KEntity)); (s2b "ENTITIES", Some (AOther KEntities));
   (s2b "NMTOKENS", Some (AOther KNmtokens)); (s2b "NMTOKEN", Some (AOther KNmtoken))].
Definition att_type (st : stream) : res (option (stream * at_type)) :=
  '(st, o) <- which st att_types None ;;
  match o with
  | None => Ok None
  | Some (AEnum _) =>
    '(st, o) <- get_until st true [s2b ")"] ;;
    match o with
    | None => Ok None
    | Some (x, _) => l <- enum_values (cstr x) ;; Ok (Some (st, AEnum l))
    end
  | Some ty => Ok (Some (st, ty))
  end.
(** the default declaration, axl_dtd.c:1587-1611 *)
Definition dquote : bytes := ["034"%char].
Definition att_default (st : stream) : res (option (stream * at_default)) :=
  '(st, o) <- which st [(s2b "#REQUIRED", Some ARequired); (s2b "#IMPLIED", Some AImplied)] None ;;
  match o with
  | Some d => Ok (Some (st, d))
  | None =>
    '(st, f) <- stream_inspect st (s2b "#FIXED") ;;
    st <- (if 0 <? f then consume_spaces st else Ok st) ;;
    '(st, v) <- stream_peek st dquote ;;
    '(st, v) <- (if 0 <? v then Ok (st, v) else stream_peek st (s2b "'")) ;;
    if 0 <? v then Ok (Some (st, if 0 <? f then AFixed else AImplied)) else Ok None
  end.
(** the default value, axl_dtd.c:1643-1655 *)
Definition att_value (st : stream) : res (stream * option bytes) :=
  '(st, o) <- which st [(dquote, Some dquote); (s2b "'", Some (s2b "'"))] None ;;
  match o with
  | None => Ok (st, None)
  | Some q => '(st, o) <- get_until st true [q] ;; Ok (st, match o with Some (x, _) => Some (cstr x) | None => None end)
  end.
Definition is_idrefs (t : at_type) : bool := match t with AIdref | AOther KIdrefs => true | _ => false end.
(** the attributes of one declaration, axl_dtd.c:1497-1688; [decls] are those already
    declared for the element, [id] and [idref] the flags of the DTD *)
Fixpoint att_loop (fuel : nat) (ents : list entity) (st : stream) (decls : list at_decl) (id idref : bool) : res (option (stream * (list at_decl * bool * bool))) :=
  match fuel with
  | O => NoFuel
  | S fuel =>
    st <- consume_spaces st ;;
    '(st, v) <- stream_inspect st (s2b ">") ;;
    if 0 <? v then Ok (Some (st, (decls, id, idref)))
    else
      '(st, o) <- get_until st false [s2b " "] ;;
      match o with
      | None => Ok None
      | Some (name, _) =>
        let name := cstr name in
        st <- consume_spaces st ;;
        ' st <-! expand st ents ;;
        '(st, ty) <-! att_type st ;;
        let id := id || match ty with AId => true | _ => false end in
        let idref := idref || is_idrefs ty in
        st <- consume_spaces st ;;
        '(st, df) <-! att_default st ;;
        let a := AtDecl name ty df None in
        if match ty with
           | AId =>
             match find is_id (decls ++ [a]) with Some b => negb (bytes_eqb (ad_name b) name) | None => false end ||
             match df with AFixed => true | _ => false end
           | _ => false
           end then Ok None
        else
          st <- consume_spaces st ;;
          '(st, value) <- att_value st ;;
          if match ty, value with AEnum vs, Some v => negb (existsb (bytes_eqb v) vs) | _, _ => false end then Ok None
          else att_loop fuel ents st (decls ++ [AtDecl name ty df value]) id idref
      end
  end.
(** axl_dtd_get_attr and the holder of the declarations of an element, axl_dtd.c:1475-1494 *)
Fixpoint put_attr (l : list (bytes * list at_decl)) (name : bytes) (decls : list at_decl) : list (bytes * list at_decl) :=
  match l with
  | [] => [(name, decls)]
  | (x, d) :: l => if bytes_eqb x name then (x, decls) :: l else (x, d) :: put_attr l name decls
  end.
Definition decls_of (l : list (bytes * list at_decl)) (name : bytes) : list at_decl :=
  match find (fun p => bytes_eqb (fst p) name) l with Some (_, d) => d | None => [] end.
(** __axl_dtd_parse_attlist, axl_dtd.c:1450-1692 *)
Definition parse_attlist (fuel : nat) (st : stream) (l : load) : res (option (stream * load)) :=
  st <- consume_spaces st ;;
  '(st, o) <- get_until st false [s2b " "] ;;
  match o with
  | None => Ok None
  | Some (name, _) =>
    let name := cstr name in
    '(st, (decls, id, idref)) <-! att_loop fuel (l_entities l) st (decls_of (l_attrs l) name) (l_id l) (l_idref l) ;;
    Ok (Some (st, Load (l_elements l) (put_attr (l_attrs l) name decls) (l_entities l) id idref))
  end.

(** __axl_dtd_parse_entity, axl_dtd.c:1744-1846 *)
Definition parse_entity (st : stream) (l : load) : res (option (stream * load)) :=
  st <- consume_spaces st ;;
  '(st, v) <- stream_inspect st (s2b "<!ENTITY") ;;
  if negb (0 <? v) then Ok None
  else
    st <- consume_spaces st ;;
    '(st, v) <- stream_inspect st (s2b "%") ;;
    let ty := if 0 <? v then EParameter else EGeneral in
    st <- (if 0 <? v then consume_spaces st else Ok st) ;;
    '(st, o) <- get_until st false [s2b " "] ;;
    match o with
    | None => Ok None
    | Some (name, _) =>
      let name := cstr name in
      st <- consume_spaces st ;;
      '(st, o) <- which st [(s2b "PUBLIC", Some None); (s2b "SYSTEM", Some None); (dquote, Some (Some dquote)); (s2b "'", Some (Some (s2b "'")))] None ;;
      match o with
      | None => Ok None
      | Some q =>
        '(st, content) <- match q with
                          | None => Ok (st, None)
                          | Some q => '(st, o) <- get_until st true [q] ;; Ok (st, match o with Some (x, _) => Some (cstr x) | None => None end)
                          end ;;
        st <- consume_spaces st ;;
        '(st, v) <- stream_inspect st (s2b ">") ;;
        if 0 <? v then Ok (Some (st, Load (l_elements l) (l_attrs l) (l_entities l ++ [Entity name ty content]) (l_id l) (l_idref l)))
        else Ok None
      end
    end.

(** the loop of __axl_dtd_parse_common, axl_dtd.c:1872-1913.  axl_doc_consume_comments
    is called without a document: no processing instruction is looked for and comments
    are not stored, as with a document whose header has not been processed *)
Fixpoint dtd_loop (fuel : nat) (st : stream) (l : load) (iterator : Z) : res (option (stream * load)) :=
  match fuel with
  | O => NoFuel
  | S fuel =>
    '(st, more) <- stream_remains st ;;
    if negb more then Ok (Some (st, l))
    else
      '(st, _) <-! consume_comments st pdoc_new ;;
      '(st, v) <- stream_peek st (s2b "<!ELEMENT") ;;
      if 0 <? v then '(st, l) <-! parse_element st l ;; dtd_loop fuel st l iterator
      else
        '(st, v) <- stream_inspect st (s2b "<!ATTLIST") ;;
        if 0 <? v then '(st, l) <-! parse_attlist fuel st l ;; dtd_loop fuel st l iterator
        else
          '(st, v) <- stream_peek st (s2b "<!ENTITY") ;;
          if 0 <? v then '(st, l) <-! parse_entity st l ;; dtd_loop fuel st l iterator
          else if iterator =? 3 then Ok None
          else dtd_loop fuel st l (iterator + 1)
  end.
(** the end of __axl_dtd_parse_common, axl_dtd.c:1917-1938 *)
Definition finish (fuel : nat) (l : load) : res (option (dtd * list entity)) :=
  root <- match l_elements l with [] => Ok None | els => r <- new_root fuel fuel els ;; Ok (Some r) end ;;
  if negb (l_id l) && l_idref l then Ok None
  else Ok (Some (Dtd (l_elements l) (l_attrs l) root (l_id l) (l_idref l), l_entities l)).
(** axl_dtd_parse, axl_dtd.c:1956-1961, and axl_dtd_parse_from_file, 2014-2018, for a
    DTD of the given bytes *)
Definition parse_common (fuel : nat) (st : stream) : res (option (dtd * list entity)) :=
  '(_, l) <-! dtd_loop fuel st load_new 0 ;; finish fuel l.
Definition dtd_parse (fuel : nat) (content : bytes) : res (option (dtd * list entity)) := parse_common fuel (stream_mem content).
Definition dtd_parse_file (fuel : nat) (content : bytes) : res (option (dtd * list entity)) := st <- stream_file content ;; parse_common fuel st.
