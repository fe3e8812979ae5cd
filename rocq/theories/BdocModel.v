(** The parser with the handlers of Babel installed (axl_babel_init, babel/axl_babel.c:82-91):
    axl_babel_detect_codification and axl_babel_configure_encoding of babel/axl_babel.c,
    axl_stream_setup_decode and axl_stream_setup_check of src/axl_stream.c, and the parts
    of src/axl_doc.c that call them.

    For streams in memory axl_stream_prebuffer does nothing (src/axl_stream.c:263), so that
    the installed functions run once, when they are set up.  For files they run again on
    every read (see [prebuffer_with]); [garbage] is the value that the variable op_result of
    axl_stream_prebuffer has before it is assigned. *)
From Coq Require Import NArith.
From Verif Require Import Prelude StrModel AttrModel TreeModel StreamModel ParseModel BabelModel BabelTables.
Open Scope Z_scope.
Open Scope list_scope.

(** axl_stream_inspect_code, src/axl_stream.c:692-698 *)
Definition inspect_code (st : stream) (value : ascii) (offset : Z) : res bool :=
  c <- rd (s_buf st) (s_idx st + offset) ;; Ok (Ascii.eqb c value).
(** [&&] of a row of inspections: the first one that fails ends it *)
Fixpoint inspect_codes (st : stream) (l : bytes) (offset : Z) : res bool :=
  match l with
  | [] => Ok true
  | c :: l => b <- inspect_code st c offset ;; if (b : bool) then inspect_codes st l (offset + 1) else Ok false
  end.
(** axl_babel_detect_codification, babel/axl_babel.c:124-220: the stream after the mark and
    the encoding found *)
Definition detect (st : stream) : res (option (stream * option bytes)) :=
  if s_size st <? 4 then Ok None
  else
    b <- inspect_codes st ["239"; "187"; "191"]%char 0 ;;
    if (b : bool) then Ok (Some (stream_move st (s_idx st + 3), Some (s2b "utf8")))
    else
      b <- inspect_codes st ["255"; "254"]%char 0 ;;
      if (b : bool) then Ok (Some (stream_move st (s_idx st + 2), Some (s2b "utf16")))
      else
        b <- inspect_codes st ["255"; "254"; "000"; "000"]%char 0 ;;
        if (b : bool) then Ok (Some (stream_move st (s_idx st + 4), Some (s2b "utf32")))
        else
          b <- inspect_codes st ["060"; "063"; "120"; "109"]%char 0 ;;
          if (b : bool) then Ok (Some (st, None))
          else
            b <- inspect_code st "060" 0 ;;
            if (b : bool) then
              b1 <- inspect_code st "060" 1 ;;
              b2 <- inspect_code st "062" 1 ;;
              if negb b1 && negb b2 then Ok (Some (st, None)) else Ok None
            else Ok None.

(** what is installed; for memory it is never looked at again *)
Definition with_handler (k : kind) (h : handler) : kind :=
  match k with MEM => MEM | FD f | FDX f _ => FDX f h end.
(** axl_stream_setup_decode, src/axl_stream.c:3651-3703, with axl_babel_single_to_utf8.
    decode_temp_remain has not been set before *)
Definition setup_decode (garbage : Z) (st : stream) (t : table) : res (option stream) :=
  rest <- mem_sub (s_buf st) (s_idx st) (s_size st - s_idx st) ;;
  temp <- memcpy_to (repeat NUL (Z.to_nat (s_bufsize st * 2 + 1))) 0 rest ;;
  out <- ptr_at (s_buf st) (s_idx st) ;;
  r <- stream_decode t (Decoder temp (length rest) 0) out (Z.to_nat (s_bufsize st - s_idx st)) ;;
  match r with
  | None => Ok None
  | Some (k, out, decoded) =>
    Ok (Some (Stream (with_handler (s_kind st) (HDecode t k false garbage)) (firstn (Z.to_nat (s_idx st)) (s_buf st) ++ out) (s_bufsize st)
                (Z.of_nat decoded + s_idx st) (s_idx st) (s_prev st)))
  end.
(** axl_stream_setup_check and axl_stream_content_check, src/axl_stream.c:3725-3751 and
    3615-3631, with axl_babel_utf8_check, babel/axl_babel.c:322-330 *)
Definition setup_check (st : stream) : res (option stream) :=
  p <- ptr_at (s_buf st) (s_idx st) ;;
  ' (b, _) <- check_utf8 p (s_size st - s_idx st) ;;
  if (b : bool) then Ok (Some (Stream (with_handler (s_kind st) HCheck) (s_buf st) (s_bufsize st) (s_size st) (s_idx st) (s_prev st)))
  else Ok None.

(** the tables by the name of the encoding, babel/axl_babel.c:369-427 *)
Definition encodings : list (bytes * table) :=
  [(s2b "iso88591", table_1); (s2b "iso88592", table_2); (s2b "iso88593", table_3); (s2b "iso88594", table_4);
   (s2b "iso88595", table_5); (s2b "iso88596", table_6); (s2b "iso88597", table_7); (s2b "iso88598", table_8);
   (s2b "iso88599", table_9); (s2b "iso885915", table_15)].
Fixpoint pick (l : list (bytes * table)) (encoding : option bytes) (t : option table) : res (option table) :=
  match l with
  | [] => Ok t
  | (name, table) :: l =>
    b <- axl_cmp encoding (Some (cs name)) ;;
    pick l encoding (if (b : bool) then Some table else t)
  end.
(** axl_babel_configure_encoding, babel/axl_babel.c:352-455; [detected] is only assigned to
    (line 366) and never used *)
Definition babel_configure (garbage : Z) (st : stream) (encoding : option bytes) : res (option stream) :=
  table <- pick encodings encoding None ;;
  u <- axl_cmp encoding (Some (cs (s2b "utf8"))) ;;
  if (u : bool) then setup_check st
  else
    match table with
    | None => Ok (Some st)
    | Some t => setup_decode garbage st t
    end.
(** axl_doc_configure_encoding, src/axl_doc.c:524-575: the name is normalised and handed
    to Babel *)
Definition doc_configure (garbage : Z) (st : stream) (d : pdoc) : res (option (stream * pdoc)) :=
  encoding <-
    match p_encoding d with
    | None => Ok None
    | Some e =>
      '(b, _) <- stream_trim_with_size (cs e) ;;
      b <- stream_remove b (cs (s2b "-")) false ;;
      b <- stream_remove b (cs (s2b "_")) false ;;
      b <- common_to to_lower b ;;
      Ok (Some b)
    end ;;
  r <- babel_configure garbage st encoding ;;
  match r with
  | None => Ok None
  | Some st => Ok (Some (st, with_encoding d (Some (s2b "utf-8"))))
  end.

(** __axl_doc_parse_xml_header, src/axl_doc.c:597-731 (see ParseModel) *)
Definition babel_header (garbage : Z) (st : stream) (d : pdoc) : res (option (stream * pdoc)) :=
  bom <- stream_check st ["239"; "187"; "191"]%char ;;
  let st := if (bom : bool) then stream_move st 3 else st in
  '(st, v) <- stream_inspect st (s2b "<?") ;;
  '(st, d) <-!
    (if v =? 0 then Ok (Some (st, d))
     else
       '(st, v) <- stream_inspect st (s2b "xml") ;;
       if negb (0 <? v) then Ok None
       else
         st <- consume_spaces st ;;
         '(st, v) <- stream_inspect st (s2b "version=") ;;
         if v =? 0 then Ok None
         else
           st <- consume_spaces st ;;
           '(st, v) <- stream_inspect_several st
              [["034"; "1"; "."; "0"; "034"]%char; ["039"; "1"; "."; "0"; "039"]%char] ;;
           if v =? 0 then Ok None
           else
             st <- consume_spaces st ;;
             '(st, v) <- stream_inspect_several st (quoted (s2b "encoding=")) ;;
             '(st, d) <-!
               (if 0 <? v then
                  '(st, o) <- get_until st true quotes ;;
                  match o with
                  | None => Ok None
                  | Some (e, _) => Ok (Some (st, with_encoding d (Some (cstr e))))
                  end
                else Ok (Some (st, d))) ;;
             st <- consume_spaces st ;;
             '(st, v) <- stream_inspect_several st (quoted (s2b "standalone=")) ;;
             '(st, d) <-!
               (if 0 <? v then
                  '(st, o) <- get_until st true quotes ;;
                  match o with
                  | None => Ok None
                  | Some (e, _) => y <- is_yes e ;; Ok (Some (st, with_standalone d y))
                  end
                else Ok (Some (st, d))) ;;
             st <- consume_spaces st ;;
             '(st, v) <- stream_inspect st (s2b "?>") ;;
             if negb (0 <? v) then Ok None
             else consume_comments st d) ;;
  '(st, d) <-! doc_configure garbage st d ;;
  '(st, v) <- stream_inspect st (s2b "<!DOCTYPE") ;;
  if 0 <? v then
    '(st, _) <- get_until_ref st true [s2b ">"] ;;
    consume_comments st d
  else Ok (Some (st, d)).
(** __axl_doc_parse_common, src/axl_doc.c:1118-1317 (see ParseModel) *)
Definition babel_common (garbage : Z) (st : stream) : res (option doc) :=
  '(st, _) <-! detect st ;;
  match babel_header garbage st pdoc_new with
  | Ok (Some (st, d)) =>
    '(st, d, is_empty) <-! parse_node st (with_header d) ;;
    '(_, d) <-! (if (is_empty : bool) then Ok (Some (st, d)) else content_loop (turns st) st d) ;;
    match p_stack d with
    | [] => Ok (Some (Doc (p_root d) (p_encoding d) (p_standalone d) (p_pis d)))
    | _ => Ok None
    end
  | Ok None => Ok None
  | UB => UB
  | NoFuel => NoFuel
  end.
(** axl_doc_parse, axl_doc.c:1849-1852, after axl_babel_init; [garbage] is of no importance
    (BdocProofs3.babel_parse_any) *)
Definition babel_parse (content : bytes) : res (option doc) := babel_common 0 (stream_mem content).
(** axl_doc_parse_from_file, axl_doc.c:1914-1919, after axl_babel_init *)
Definition babel_parse_file (garbage : Z) (content : bytes) : res (option doc) :=
  st <- stream_file content ;; babel_common garbage st.
