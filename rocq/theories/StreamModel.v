(** Model of the reading functions of src/axl_stream.c, for memory and file streams.

    The stream buffer is a block with checked accesses; indexes are those of the C
    struct.  The functions that convert or check the bytes of a file as they are read are
    those of Babel (BabelModel).  Simplifications: the string allocator is not represented (a chunk handed out is the
    list of its bytes, the block holding it being zero terminated); get_until_zero
    is in KnifeModel; read(2) on a file returns all the bytes asked for, or those
    left; the bytes added by realloc are zero. *)
From Verif Require Import Prelude StrModel.
From Verif Require BabelModel.
Open Scope Z_scope.

(** what stream->check_f or stream->decode_f do when Babel has set them: check that the bytes
    are UTF-8, or convert them with a table; then also decode_temp, decode_temp_last and
    decode_temp_remain (decode_temp_index is 0 between calls), needs_expansion, and the value
    that the local variable op_result of axl_stream_prebuffer has before it is assigned *)
Inductive handler := HCheck | HDecode (t : BabelModel.table) (k : BabelModel.decoder) (expand : bool) (garbage : Z).
(** stream->type, and for files stream->fd with the part of the file not read yet
    ([None] when closed) *)
Inductive kind := MEM | FD (left : option bytes) | FDX (left : option bytes) (h : handler).

(** struct _axlStream, axl_stream.c:83-222 *)
Record stream := Stream {
  s_kind : kind;
  s_buf : bytes;         (* stream->stream *)
  s_bufsize : Z;         (* stream->buffer_size *)
  s_size : Z;            (* stream->stream_size *)
  s_idx : Z;             (* stream->stream_index *)
  s_prev : Z             (* stream->previous_inspect *)
}.
Definition set_pos (st : stream) (idx prev : Z) : stream :=
  Stream (s_kind st) (s_buf st) (s_bufsize st) (s_size st) idx prev.
Definition set_buf (st : stream) (b : bytes) : stream :=
  Stream (s_kind st) b (s_bufsize st) (s_size st) (s_idx st) (s_prev st).

(** The loop of axl_stream_prebuffer that converts, axl_stream.c:340-406: [k] and [expand] are
    those of the handler, [file] what is left of the file, [b] the buffer with [size] bytes in
    it, [op] is op_result.  The result has also what axl_stream_prebuffer returns. *)
Fixpoint decode_loop (fuel : nat) (t : BabelModel.table) (k : BabelModel.decoder) (expand : bool) (file : option bytes)
  (b : bytes) (bufsize size op : Z) : res (BabelModel.decoder * bool * option bytes * bytes * Z * bool) :=
  match fuel with
  | O => NoFuel
  | S fuel =>
    '(k, expand, b, size, op, ok) <-
      (if (0 <? BabelModel.k_last k)%nat then
         out <- ptr_at b size ;;
         r <- BabelModel.stream_decode t k out (Z.to_nat (bufsize - size)) ;;
         match r with
         | None => Ok (k, expand, b, size, op, false)
         | Some (k, out, decoded) =>
           let op := if (BabelModel.k_last k =? 0)%nat then 1 else 2 in
           Ok (k, if (op =? 2) && (decoded =? 0)%nat then true else expand,
               firstn (Z.to_nat size) b ++ out, size + Z.of_nat decoded, op, true)
         end
       else Ok (k, expand, b, size, op, true)) ;;
    if negb ok then Ok (k, expand, file, b, size, false)
    else if op =? 2 then Ok (k, expand, file, b, size, true)
    else if 0 <? bufsize - size then
      let left := match file with Some f => f | None => [] end in
      let data := firstn (length (BabelModel.k_temp k) - BabelModel.k_last k) left in
      temp <- memcpy_to (BabelModel.k_temp k) (Z.of_nat (BabelModel.k_last k)) data ;;
      let k := BabelModel.Decoder temp (BabelModel.k_last k + length data) (BabelModel.k_remain k) in
      let file := match data with [] => None | _ => Some (skipn (length data) left) end in
      match file with
      | None => if (BabelModel.k_last k =? 0)%nat then Ok (k, expand, file, b, size, true)
                else decode_loop fuel t k expand file b bufsize size op
      | Some _ => decode_loop fuel t k expand file b bufsize size op
      end
    else Ok (k, expand, file, b, size, true)
  end.
(** axl_stream_prebuffer, axl_stream.c:253-452, for a file with a handler *)
Definition prebuffer_with (h : handler) (file : bytes) (st : stream) : res (stream * bool) :=
  let size := s_size st in
  let idx := s_idx st in
  let expand := match h with HDecode _ _ e _ => e | HCheck => false end in
  '(b, bufsize, size, expand) <-
    (if (0 <? idx) && (0 <? size - idx) then
       tmp <- mem_sub (s_buf st) idx (size - idx) ;;
       b <- memcpy_to (s_buf st) 0 tmp ;;
       Ok (b, s_bufsize st, size - idx, expand)
     else if (size =? s_bufsize st) && (idx =? 0) || expand then
       Ok (s_buf st ++ repeat NUL (Z.to_nat (s_bufsize st)), s_bufsize st + s_bufsize st, size, false)
     else Ok (s_buf st, s_bufsize st, if size =? idx then 0 else size, expand)) ;;
  match h with
  | HDecode t k _ garbage =>
    '(k, expand, rest, b, size, ok) <- decode_loop (2 + length file) t k expand (Some file) b bufsize size garbage ;;
    Ok (Stream (FDX rest (HDecode t k expand garbage)) b bufsize size 0 (s_prev st), ok)
  | HCheck =>
    let data := firstn (Z.to_nat (bufsize - size)) file in
    b <- memcpy_to b size data ;;
    p <- ptr_at b size ;;
    ' (good, _) <- BabelModel.check_utf8 p (Z.of_nat (length data)) ;;
    let left := skipn (length data) file in
    if negb good then Ok (Stream (FDX (Some left) HCheck) b bufsize size 0 (s_prev st), false)
    else
      match data with
      | [] => Ok (Stream (FDX None HCheck) b bufsize size 0 (s_prev st), false)
      | _ => Ok (Stream (FDX (Some left) HCheck) b bufsize (size + Z.of_nat (length data)) 0 (s_prev st), true)
      end
  end.
(** axl_stream_prebuffer, axl_stream.c:253-452 *)
Definition prebuffer (st : stream) : res (stream * bool) :=
  match s_kind st with
  | MEM | FD None | FDX None _ => Ok (st, false)
  | FDX (Some file) h => prebuffer_with h file st
  | FD (Some file) =>
    let size := s_size st in
    let idx := s_idx st in
    '(b, bufsize, size) <-
      (if (0 <? idx) && (0 <? size - idx) then
         tmp <- mem_sub (s_buf st) idx (size - idx) ;;
         b <- memcpy_to (s_buf st) 0 tmp ;;
         Ok (b, s_bufsize st, size - idx)
       else if (size =? s_bufsize st) && (idx =? 0) then
         Ok (s_buf st ++ repeat NUL (Z.to_nat (s_bufsize st)), s_bufsize st + s_bufsize st, size)
       else Ok (s_buf st, s_bufsize st, if size =? idx then 0 else size)) ;;
    let data := firstn (Z.to_nat (bufsize - size)) file in
    b <- memcpy_to b size data ;;
    match data with
    | [] => Ok (Stream (FD None) b bufsize size 0 (s_prev st), false)
    | _ => Ok (Stream (FD (Some (skipn (length data) file))) b bufsize
                 (size + Z.of_nat (length data)) 0 (s_prev st), true)
    end
  end.

(** axl_stream_new, axl_stream.c:528-594 (STREAM_BUFFER_SIZE is 8192, axl_stream.c:68) *)
Definition stream_mem (content : bytes) : stream :=
  Stream MEM (content ++ [NUL]) (Z.of_nat (length content)) (Z.of_nat (length content)) 0 0.
Definition buffer_size : Z := 8192.
Definition stream_file (content : bytes) : res stream :=
  '(st, _) <- prebuffer (Stream (FD (Some content)) (repeat NUL (Z.to_nat buffer_size + 1)) buffer_size 0 0 0) ;;
  Ok st.

(** axl_stream_accept, axl_stream.c:812-826 *)
Definition stream_accept (st : stream) : stream := set_pos st (s_idx st + s_prev st) 0.
(** axl_stream_move, axl_stream.c:911-919 *)
Definition stream_move (st : stream) (i : Z) : stream := set_pos (stream_accept st) i 0.

(** the axl_stream_common_inspect macro, axl_stream.c:616-634, with
    axl_stream_fall_outside, 2090-2099: -1 when the stream is too short, 0 when the
    text is not there, 1 when it is *)
Definition common_inspect (accept : bool) (st : stream) (chunk : bytes) : res (stream * Z) :=
  let size := Z.of_nat (length chunk) in
  '(st, outside) <-
    (if s_size st <? size + s_idx st then ('(st, more) <- prebuffer st ;; Ok (st, negb more)) else Ok (st, false)) ;;
  if (outside : bool) then Ok (st, -1)
  else
    p <- ptr_at (s_buf st) (s_idx st) ;;
    r <- axl_memcmp (cs chunk) p size ;;
    if (r : bool) then
      let st := set_pos st (s_idx st) size in
      Ok (if accept then stream_accept st else st, 1)
    else Ok (st, 0).
(** axl_stream_inspect and axl_stream_peek, axl_stream.c:669-675 and 714-720 *)
Definition stream_inspect := common_inspect true.
Definition stream_peek := common_inspect false.

(** axl_stream_inspect_several, axl_stream.c:751-803 *)
Fixpoint inspect_several (st : stream) (chunks : list bytes) (it last : Z) : res (stream * Z) :=
  match chunks with
  | [] => Ok (st, last)
  | c :: r =>
    '(st, v) <- stream_inspect st c ;;
    if v =? -1 then inspect_several st r (it + 1) (-1)
    else if v =? 0 then inspect_several st r (it + 1) last
    else Ok (st, it + 1)
  end.
Definition stream_inspect_several (st : stream) (chunks : list bytes) : res (stream * Z) :=
  inspect_several st chunks 0 0.

(** axl_stream_check, axl_stream.c:2113-2120 *)
Definition stream_check (st : stream) (chunk : bytes) : res bool :=
  p <- ptr_at (s_buf st) (s_idx st) ;; axl_memcmp (cs chunk) p (Z.of_nat (length chunk)).

(** axl_stream_remains, axl_stream.c:2131-2149 *)
Definition stream_remains (st : stream) : res (stream * bool) :=
  if s_size st <=? s_idx st then prebuffer st else Ok (st, true).

(** number of turns that is enough for the loops below *)
Definition turns (st : stream) : nat :=
  (2 + length (s_buf st) + match s_kind st with
   | FD (Some f) => 4 * length f
   | FDX (Some f) HCheck => 4 * length f
   | FDX (Some f) (HDecode _ k _ _) => 16 * (length f + BabelModel.k_last k)
   | _ => 0
   end)%nat.

(** axl_stream_consume_white_spaces, axl_stream.c:1959-2001 *)
Fixpoint spaces_loop (fuel : nat) (st : stream) (remains : Z) : res stream :=
  match fuel with
  | O => NoFuel
  | S fuel' =>
    let remains := remains - 1 in
    '(st, go, remains) <-
      (if remains <? 0 then
         '(st, more) <- prebuffer st ;; Ok (st, more, s_size st - s_idx st - 1)
       else Ok (st, true, remains)) ;;
    if (go : bool) then
      c <- rd (s_buf st) (s_idx st) ;;
      if is_ws c then spaces_loop fuel' (set_pos st (s_idx st + 1) 0) remains
      else Ok st
    else Ok st
  end.
Definition consume_spaces (st : stream) : res stream :=
  spaces_loop (turns st) st (s_size st - s_idx st).

(** __axl_stream_get_untilv_wide, axl_stream.c:1279-1530.  The chunk " " stands for
    any white space; it has length 0 in stream->lengths. *)
Definition ws_chunk (c : bytes) : bool := bytes_eqb c (s2b " ").
Definition chunk_len (c : bytes) : Z := if ws_chunk c then 0 else Z.of_nat (length c).
Definition max_length (chunks : list bytes) : Z := fold_left Z.max (map chunk_len chunks) 0.
(** empty_index: the position of the last " " *)
Fixpoint empty_index (chunks : list bytes) (it acc : Z) : Z :=
  match chunks with
  | [] => acc
  | c :: r => empty_index r (it + 1) (if ws_chunk c then it else acc)
  end.
(** the loop over the chunks, axl_stream.c:1426-1454: the chunk matched and its length *)
Fixpoint match_chunks (chunks : list bytes) (b : bytes) (size pos it : Z) : res (option (Z * Z)) :=
  match chunks with
  | [] => Ok None
  | c :: r =>
    let length := chunk_len c in
    m <- (if (0 <? length) && (pos + length <=? size) then
            d <- rd b pos ;;
            f <- rd (cs c) 0 ;;
            if Ascii.eqb f d then
              if length =? 1 then Ok true
              else (p <- ptr_at b (pos + 1) ;; axl_memcmp (cs (tl c)) p (length - 1))
            else Ok false
          else Ok false) ;;
    if (m : bool) then Ok (Some (it, length)) else match_chunks r b size pos (it + 1)
  end.
Definition match_at (chunks : list bytes) (b : bytes) (size pos : Z) : res (option (Z * Z)) :=
  w <- (if existsb ws_chunk chunks then (d <- rd b pos ;; Ok (is_ws d)) else Ok false) ;;
  if (w : bool) then Ok (Some (empty_index chunks 0 0, 1))
  else match_chunks chunks b size pos 0.

(** axl_stream.c:1478-1521: handing out the text read; [by_ref] for the variant that
    returns a reference to the stream buffer, which is NULL when the text is empty *)
Definition until_result (st : stream) (accept by_ref : bool) (index length it : Z)
  : res (stream * option (bytes * Z)) :=
  text <- mem_sub (s_buf st) (s_idx st) index ;;
  b <- (if by_ref then wr (s_buf st) (s_idx st + index) NUL else Ok (s_buf st)) ;;
  let st := set_pos (set_buf st b) (s_idx st + index + (if accept then length else 0)) 0 in
  Ok (st, if by_ref && (index =? 0) then None else Some (text, it)).

(** [again] is the jump to init_get_until *)
Fixpoint until_loop (fuel : nat) (st : stream) (chunks : list bytes) (accept by_ref : bool)
  (index remains : Z) (again : bool) : res (stream * option (bytes * Z)) :=
  match fuel with
  | O => NoFuel
  | S fuel' =>
    '(st, go, index, remains) <-
      (if again then Ok (st, true, index, remains)
       else
         let remains := remains - 1 in
         if remains <? 0 then
           match s_kind st with
           | MEM => Ok (st, false, index, remains)
           | _ =>
             '(st, more) <- prebuffer st ;;
             Ok (st, more, if 0 <? index then index - 1 else index, s_size st - index - 1)
           end
         else Ok (st, true, index, remains)) ;;
    if (go : bool) then
      m <- match_at chunks (s_buf st) (s_size st) (s_idx st + index) ;;
      match m with
      | Some (it, length) =>
        if (length <? max_length chunks) && (s_idx st + index + length =? s_size st) then
          '(st, more) <- prebuffer st ;;
          if (more : bool) then until_loop fuel' st chunks accept by_ref index remains true
          else until_result st accept by_ref index length it
        else until_result st accept by_ref index length it
      | None => until_loop fuel' st chunks accept by_ref (index + 1) remains false
      end
    else Ok (st, None)
  end.
(** axl_stream_get_until and axl_stream_get_until_ref, axl_stream.c:1559-1740: the
    text and the number of the chunk found, or NULL *)
Definition get_until (st : stream) (accept : bool) (chunks : list bytes) : res (stream * option (bytes * Z)) :=
  until_loop (turns st) st chunks accept false 0 (s_size st - s_idx st) false.
Definition get_until_ref (st : stream) (accept : bool) (chunks : list bytes) : res (stream * option (bytes * Z)) :=
  until_loop (turns st) st chunks accept true 0 (s_size st - s_idx st) false.
