(** Model of the escaping and text functions of src/axl_node.c.

    Same conventions as StrModel: a block is the list of its bytes, an access
    outside it is [UB], axl_new returns a fresh zeroed block, constant string
    arguments are blocks.  The loops carry a bound ([NoFuel] when exhausted). *)
From Verif Require Import Prelude StrModel.
Open Scope Z_scope.

Definition apos : ascii := "'"%char.
Definition quot : ascii := "034"%char.
Definition amp : ascii := "&"%char.
Definition gt : ascii := ">"%char.
Definition lt : ascii := "<"%char.
Definition rsq : ascii := "]"%char.

(** content[i] == ']' && content[i+1] == ']' && content[i+2] == '>' with the
    short-circuit of &&: axl_node.c:412 and 5210 *)
Definition at_cdata_end (b : bytes) (i : Z) : res bool :=
  c <- rd b i ;;
  if negb (Ascii.eqb c rsq) then Ok false
  else
    c <- rd b (i + 1) ;;
    if negb (Ascii.eqb c rsq) then Ok false
    else (c <- rd b (i + 2) ;; Ok (Ascii.eqb c gt)).

(** the loop of axl_node_has_invalid_chars_internal, axl_node.c:5168-5230: whether
    something must be escaped and the number of additional bytes *)
Fixpoint invalid_loop (fuel : nat) (b : bytes) (size : Z) (cdata : bool)
                      (it : Z) (result : bool) (added : Z) : res (bool * Z) :=
  match fuel with
  | O => NoFuel
  | S fuel' =>
    if it <? size then
      c <- rd b it ;;
      let '(result, added) := if Ascii.eqb c apos then (true, added + 5) else (result, added) in
      let '(result, added) := if Ascii.eqb c quot then (true, added + 5) else (result, added) in
      let '(result, added) := if Ascii.eqb c amp then (true, added + 4) else (result, added) in
      let '(result, added) := if Ascii.eqb c gt then (true, added + 3) else (result, added) in
      let '(result, added) := if Ascii.eqb c lt then (true, added + 3) else (result, added) in
      e <- at_cdata_end b it ;;
      if (e : bool) then invalid_loop fuel' b size cdata (it + 3) true (added + (if cdata then 15 else 3))
      else invalid_loop fuel' b size cdata (it + 1) result added
    else Ok (result, added)
  end.
(** axl_node_has_invalid_chars_internal, axl_node.c:5148-5237 (content not NULL) *)
Definition has_invalid_chars_internal (b : bytes) (size : Z) (cdata : bool) : res (bool * Z) :=
  size <- (if size =? -1 then c_strlen b else Ok size) ;;
  invalid_loop (S (Z.to_nat size)) b size cdata 0 false 0.
(** axl_node_has_invalid_chars, axl_node.c:5265-5272 *)
Definition has_invalid_chars (b : bytes) (size : Z) : res (bool * Z) := has_invalid_chars_internal b size false.
(** axl_node_has_invalid_chars_cdata, axl_node.c:5300-5307 *)
Definition has_invalid_chars_cdata (b : bytes) (size : Z) : res (bool * Z) := has_invalid_chars_internal b size true.

(** the loop of __axl_node_content_copy_and_escape, axl_node.c:370-432 *)
Fixpoint escape_loop (fuel : nat) (b : bytes) (size : Z) (cdata : bool)
                     (out : bytes) (it it2 : Z) : res bytes :=
  match fuel with
  | O => NoFuel
  | S fuel' =>
    if it2 <? size then
      c <- rd b it2 ;;
      if Ascii.eqb c apos then
        (out <- memcpy_to out it (s2b "&apos;") ;; escape_loop fuel' b size cdata out (it + 6) (it2 + 1))
      else if Ascii.eqb c quot then
        (out <- memcpy_to out it (s2b "&quot;") ;; escape_loop fuel' b size cdata out (it + 6) (it2 + 1))
      else if Ascii.eqb c amp then
        (out <- memcpy_to out it (s2b "&amp;") ;; escape_loop fuel' b size cdata out (it + 5) (it2 + 1))
      else if Ascii.eqb c gt then
        (out <- memcpy_to out it (s2b "&gt;") ;; escape_loop fuel' b size cdata out (it + 4) (it2 + 1))
      else if Ascii.eqb c lt then
        (out <- memcpy_to out it (s2b "&lt;") ;; escape_loop fuel' b size cdata out (it + 4) (it2 + 1))
      else
        e <- at_cdata_end b it2 ;;
        if (e : bool) then
          if cdata then
            (out <- memcpy_to out it (s2b "]]>]]&gt;<![CDATA[") ;;
             escape_loop fuel' b size cdata out (it + 18) (it2 + 3))
          else
            (out <- memcpy_to out it (s2b "]]&gt;") ;; escape_loop fuel' b size cdata out (it + 6) (it2 + 3))
        else
          (out <- wr out it c ;; escape_loop fuel' b size cdata out (it + 1) (it2 + 1))
    else Ok out
  end.
(** __axl_node_content_copy_and_escape, axl_node.c:356-436 *)
Definition copy_and_escape (b : bytes) (size additional : Z) (cdata : bool) : res bytes :=
  escape_loop (S (Z.to_nat size)) b size cdata (repeat NUL (Z.to_nat (size + additional + 1))) 0 0.
(** axl_node_content_copy_and_escape, axl_node.c:5340-5348 *)
Definition content_copy_and_escape (b : bytes) (size additional : Z) : res bytes :=
  copy_and_escape b size additional false.
(** axl_node_content_copy_and_escape_cdata, axl_node.c:5382-5390 *)
Definition content_copy_and_escape_cdata (b : bytes) (size additional : Z) : res bytes :=
  copy_and_escape b size additional true.

(** the loop of axl_node_content_translate_defaults, axl_node.c:475-529 *)
Fixpoint translate_loop (fuel : nat) (b : bytes) (size it it2 : Z) : res (bytes * Z) :=
  match fuel with
  | O => NoFuel
  | S fuel' =>
    if it <? size then
      p <- ptr_at b it ;;
      m <- stream_cmp (Some p) (Some (cs (s2b "&apos;"))) 6 ;;
      if (m : bool) then (b <- wr b it2 apos ;; translate_loop fuel' b size (it + 6) (it2 + 1)) else
      m <- stream_cmp (Some p) (Some (cs (s2b "&quot;"))) 6 ;;
      if (m : bool) then (b <- wr b it2 quot ;; translate_loop fuel' b size (it + 6) (it2 + 1)) else
      m <- stream_cmp (Some p) (Some (cs (s2b "&amp;"))) 5 ;;
      if (m : bool) then (b <- wr b it2 amp ;; translate_loop fuel' b size (it + 5) (it2 + 1)) else
      m <- stream_cmp (Some p) (Some (cs (s2b "&gt;"))) 4 ;;
      if (m : bool) then (b <- wr b it2 gt ;; translate_loop fuel' b size (it + 4) (it2 + 1)) else
      m <- stream_cmp (Some p) (Some (cs (s2b "&lt;"))) 4 ;;
      if (m : bool) then (b <- wr b it2 lt ;; translate_loop fuel' b size (it + 4) (it2 + 1)) else
      b <- (if negb (it2 =? it) then (c <- rd b it ;; wr b it2 c) else Ok b) ;;
      translate_loop fuel' b size (it + 1) (it2 + 1)
    else Ok (b, it2)
  end.
(** axl_node_content_translate_defaults, axl_node.c:461-535: the block, changed in
    place, and the new size *)
Definition content_translate_defaults (b : bytes) (size : Z) : res (bytes * Z) :=
  size <- (if (size =? 0) || (size =? -1) then c_strlen b else Ok size) ;;
  '(b, n) <- translate_loop (S (Z.to_nat size)) b size 0 0 ;;
  b <- wr b n NUL ;;
  Ok (b, n).

(** axl_stream_strdup, axl_stream.c:2364-2381 *)
Definition c_strdup (b : bytes) : res bytes :=
  n <- c_strlen b ;;
  src <- mem_sub b 0 n ;;
  memcpy_to (repeat NUL (Z.to_nat (n + 1))) 0 src.

(** The items of an element, as far as the text functions see them: text and CDATA
    items hold a block and a size (axlNodeContent, axl_node.c:65-85); elements,
    comments, processing instructions and references are [ItOther]. *)
Inductive item :=
| ItContent (block : bytes) (size : Z)
| ItCdata (block : bytes) (size : Z)
| ItOther.

(** axl_node_set_content, axl_node.c:2788-2830: appends one item
    (axl_item_set_child puts it after the last one) *)
Definition node_set_content (items : list item) (content : bytes) (size : Z) : res (list item) :=
  size <- (if size =? -1 then c_strlen content else Ok size) ;;
  '(bad, add) <- has_invalid_chars content size ;;
  if (bad : bool) then
    (block <- copy_and_escape content size add false ;; Ok (items ++ [ItContent block (size + add)]))
  else
    (src <- mem_sub content 0 size ;;
     block <- memcpy_to (repeat NUL (Z.to_nat (size + 1))) 0 src ;;
     Ok (items ++ [ItContent block size])).

(** axl_node_set_cdata_content, axl_node.c:2973-3004 with
    __axl_node_set_content_common_ref, 2836-2890 *)
Definition node_set_cdata_content (items : list item) (content : bytes) (size : Z) : res (list item) :=
  size <- (if size =? -1 then c_strlen content else Ok size) ;;
  '(bad, add) <- has_invalid_chars_cdata content size ;;
  if (bad : bool) then
    (block <- copy_and_escape content size add true ;; Ok (items ++ [ItCdata block (size + add)]))
  else
    (block <- c_strdup content ;; Ok (items ++ [ItCdata block size])).

(** axl_node_get_content, axl_node.c:2715-2750: the block of the first text item and
    its size *)
Fixpoint node_get_content (items : list item) : bytes * Z :=
  match items with
  | [] => (cs [], 0)
  | ItContent b n :: _ | ItCdata b n :: _ => (b, n)
  | ItOther :: r => node_get_content r
  end.
(** axl_node_get_content_copy, axl_node.c:3086-3118, with a size reference *)
Definition node_get_content_copy (items : list item) : res (bytes * Z) :=
  let (b, n) := node_get_content items in
  len <- c_strlen b ;;
  if len =? 0 then Ok (cs [], n)
  else
    src <- mem_sub b 0 n ;;
    out <- memcpy_to (repeat NUL (Z.to_nat (n + 1))) 0 src ;;
    Ok (out, n).
(** axl_node_get_content_trans_count, axl_node.c:3186-3211 *)
Fixpoint trans_count (items : list item) (count : nat) (total : Z) : nat * Z :=
  match items with
  | [] => (count, total)
  | ItContent _ n :: r | ItCdata _ n :: r => trans_count r (S count) (total + n)
  | ItOther :: r => trans_count r count total
  end.
(** axl_node_get_content_trans_copy, axl_node.c:3214-3241 *)
Fixpoint trans_copy (items : list item) (out : bytes) (desp : Z) : res bytes :=
  match items with
  | [] => Ok out
  | ItContent b n :: r | ItCdata b n :: r =>
    src <- mem_sub b 0 n ;;
    out <- memcpy_to out desp src ;;
    trans_copy r out (desp + n)
  | ItOther :: r => trans_copy r out desp
  end.
(** axl_node_get_content_trans, axl_node.c:3258-3315, with a size reference: the
    block ([None] for NULL) and the size *)
Definition node_get_content_trans (items : list item) : res (option bytes * Z) :=
  let (count, total) := trans_count items O 0 in
  match count with
  | O => Ok (None, 0)
  | S k =>
    '(b, n) <- match k with
               | O => node_get_content_copy items
               | S _ => (b <- trans_copy items (repeat NUL (Z.to_nat (total + 1))) 0 ;; Ok (b, total))
               end ;;
    len <- c_strlen b ;;
    if len =? 0 then Ok (Some b, n)
    else ('(b, n) <- content_translate_defaults b n ;; Ok (Some b, n))
  end.

(** axl_node_get_content_trim, axl_node.c:3140-3184: the text of the first text item,
    trimmed in place *)
Fixpoint node_get_content_trim (items : list item) : res (list item * (bytes * Z)) :=
  match items with
  | [] => Ok ([], (cs [], 0))
  | ItContent b n :: r =>
    '(b, t) <- stream_trim_with_size b ;; Ok (ItContent b (n - t) :: r, (b, n - t))
  | ItCdata b n :: r =>
    '(b, t) <- stream_trim_with_size b ;; Ok (ItCdata b (n - t) :: r, (b, n - t))
  | ItOther :: r => '(r, x) <- node_get_content_trim r ;; Ok (ItOther :: r, x)
  end.

(** the copy axl_node_set_attribute makes of the attribute name and of its value,
    axl_node.c:1174-1187 and 1190-1202 *)
Definition attr_escape (b : bytes) : res bytes :=
  n <- c_strlen b ;;
  '(bad, add) <- has_invalid_chars b n ;;
  if (bad : bool) then copy_and_escape b n add false else c_strdup b.
(** axl_node_get_attribute_value_trans on the stored value, axl_node.c:1557-1562 *)
Definition attr_value_trans (b : bytes) : res bytes :=
  b <- c_strdup b ;;
  n <- c_strlen b ;;
  '(b, _) <- content_translate_defaults b n ;;
  Ok b.
