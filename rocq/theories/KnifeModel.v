(** Model of the translation of document type definitions into C headers by the tool
    axl-knife (knife/axl-knife.c).

    Simplifications: the file is the list of its bytes, the same each time it is opened;
    what is written is the list of bytes that fprintf receives (the file or the standard
    output it goes to is not represented); the check that the file is a valid definition
    (axl_dtd_parse_from_file, 551-568) only decides if the rest runs and is not repeated
    here (LoadModel); toupper is that of the C locale. *)
From Verif Require Import Prelude StrModel StreamModel.
Open Scope Z_scope.

(** __axl_stream_get_untilv_wide, axl_stream.c:1279-1530, when axl_stream_get_until_zero has
    set stream->zero: at the end of the stream the text found so far is handed out and
    chunk_matched is -2; [last] is the variable length, which keeps its value *)
Fixpoint zero_loop (fuel : nat) (st : stream) (chunks : list bytes) (accept : bool)
  (index remains last : Z) (again : bool) : res (stream * option (bytes * Z)) :=
  match fuel with
  | O => NoFuel
  | S fuel' =>
    '(st, go, index, remains) <-
      (if again then Ok (st, true, index, remains)
       else
         let remains := remains - 1 in
         if remains <? 0 then
           match s_kind st with
           | MEM => Ok (st, false, index, remains)
           | _ =>
             '(st, more) <- prebuffer st ;;
             if (more : bool) then Ok (st, true, if 0 <? index then index - 1 else index, s_size st - index - 1)
             else Ok (st, false, index, remains)
           end
         else Ok (st, true, index, remains)) ;;
    if (go : bool) then
      m <- match_at chunks (s_buf st) (s_size st) (s_idx st + index) ;;
      match m with
      | Some (it, length) =>
        if (length <? max_length chunks) && (s_idx st + index + length =? s_size st) then
          '(st, more) <- prebuffer st ;;
          if (more : bool) then zero_loop fuel' st chunks accept index remains length true
          else until_result st accept false index length it
        else until_result st accept false index length it
      | None => zero_loop fuel' st chunks accept (index + 1) remains (chunk_len (List.last chunks [])) false
      end
    else until_result st accept false index last (-2)
  end.
(** axl_stream_get_until_zero, axl_stream.c:1161-1182 *)
Definition get_until_zero (st : stream) (accept : bool) (chunks : list bytes) : res (stream * option (bytes * Z)) :=
  zero_loop (turns st) st chunks accept 0 (s_size st - s_idx st) 0 false.

Definition LF : ascii := "010"%char.
Definition TAB : ascii := "009"%char.
Definition QUOT : ascii := "034"%char.

(** axl_knife_file_name, axl-knife.c:87-108: [n] is iterator + 1 *)
Fixpoint name_loop (path : bytes) (n : nat) : res bytes :=
  match n with
  | O => Ok path
  | S k =>
    c <- rd (cs path) (Z.of_nat k) ;;
    if Ascii.eqb c "/" then Ok (skipn (k + 1) path) else name_loop path k
  end.
Definition file_name (path : bytes) : res bytes := name_loop path (length path).
(** axl_knife_clean_name, axl-knife.c:116-135 *)
Definition clean_char (c : ascii) : ascii := if Ascii.eqb c "." || Ascii.eqb c "-" then "_"%char else c.
Definition clean_name (name : bytes) : bytes := map clean_char name.
(** axl_stream_to_upper, axl_stream.c:3319-3323, with __axl_stream_common_to, 3285-3305 *)
Definition upper (name : bytes) : bytes := map to_upper name.

(** the loop that finds the length of the longest line, axl-knife.c:586-596 *)
Fixpoint longest (fuel : nat) (st : stream) (line_length : Z) : res Z :=
  match fuel with
  | O => NoFuel
  | S fuel' =>
    '(st, o) <- get_until_zero st true [[LF]] ;;
    let max := match o with Some (ref, _) => Z.of_nat (length (cstr ref)) | None => 0 end in
    let line_length := if line_length <? max then max else line_length in
    match o with
    | Some (_, matched) => if matched =? -2 then Ok line_length else longest fuel' st line_length
    | None => longest fuel' st line_length
    end
  end.
(** the characters changed in a line, axl-knife.c:627-634 *)
Definition shown_char (c : ascii) : ascii :=
  let c := if Ascii.eqb c TAB then " "%char else c in
  if Ascii.eqb c QUOT then "'"%char else c.
(** fprintf with the format built at axl-knife.c:603: "%-<width>s  \" and a line end *)
Definition put_line (width : Z) (ref : bytes) : bytes :=
  ref ++ repeat " "%char (Z.to_nat width - length ref) ++ s2b "  \" ++ [LF].
(** the loop that writes the lines, axl-knife.c:622-643; a NULL line given to fprintf is
    undefined behaviour *)
Fixpoint write_lines (fuel : nat) (st : stream) (width : Z) (out : bytes) : res bytes :=
  match fuel with
  | O => NoFuel
  | S fuel' =>
    '(st, o) <- get_until_zero st true [[LF]] ;;
    match o with
    | None => UB
    | Some (ref, matched) =>
      let out := out ++ put_line width (map shown_char (cstr ref)) in
      if matched =? -2 then Ok out else write_lines fuel' st width out
    end
  end.
(** axl_knife_dtd_to_c, axl-knife.c:547-663, once the definition has been accepted *)
Definition dtd_to_c (path content : bytes) : res bytes :=
  st <- stream_file content ;;
  line_length <- longest (2 + length content) st 0 ;;
  st <- stream_file content ;;
  file <- file_name path ;;
  let out := s2b "/**" ++ [LF] ++ s2b " * C inline representation for DTD " ++ file ++ s2b ", created by axl-knife" ++ [LF] ++ s2b " */" ++ [LF] in
  let file := upper (clean_name file) in
  let out := out ++ s2b "#ifndef __" ++ file ++ s2b "_H__" ++ [LF] ++ s2b "#define __" ++ file ++ s2b "_H__" ++ [LF]
    ++ s2b "#define " ++ file ++ s2b " ""\n\" ++ [LF] in
  out <- write_lines (2 + length content) st (line_length + 1) out ;;
  Ok (out ++ s2b "\n""" ++ [LF] ++ s2b "#endif" ++ [LF]).
