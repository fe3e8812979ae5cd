(** The printf-like functions: src/axl_stream.c, and the texts of errors: src/axl_error.c.

    Modelled as compiled elsewhere than on Windows, both with and without
    AXL_HAVE_VASPRINTF (configure.ac:305).  The functions of the C library are modelled by
    what C11 7.21.6 and 7.16 (and glibc for vasprintf) say of them, for the conversions
    %s, %d, %c and %% without flags, width and precision; another conversion, an argument
    of another type or a missing one is UB.  A format is a C string, without its NUL;
    an int that overflows is not represented. *)
From Coq Require Import DecimalString.
From Verif Require Import Prelude StrModel.
Open Scope Z_scope.

(** an argument of "..." *)
Inductive arg := AStr (s : bytes) | AInt (n : Z) | AChr (c : ascii).
(** %d *)
Definition dec (n : Z) : bytes := s2b (NilZero.string_of_int (Z.to_int n)).
(** what the C library makes of a format and its arguments *)
Fixpoint expand (f : bytes) (args : list arg) : option bytes :=
  match f with
  | [] => Some []
  | c :: f =>
    if Ascii.eqb c "%" then
      match f with
      | [] => None
      | k :: f =>
        if Ascii.eqb k "%" then option_map (cons "%"%char) (expand f args)
        else
          match args with
          | AStr s :: args => if Ascii.eqb k "s" then option_map (app s) (expand f args) else None
          | AInt n :: args => if Ascii.eqb k "d" then option_map (app (dec n)) (expand f args) else None
          | AChr a :: args => if Ascii.eqb k "c" then option_map (cons a) (expand f args) else None
          | [] => None
          end
      end
    else option_map (cons c) (expand f args)
  end.
(** a conversion that takes an argument is there: va_arg is called *)
Fixpoint takes (f : bytes) : bool :=
  match f with
  | [] => false
  | c :: f => if Ascii.eqb c "%" then match f with [] => false | k :: f => if Ascii.eqb k "%" then takes f else true end else takes f
  end.

(** va_list, C11 7.16: after a function has called va_arg with it, its value is not
    determined, and it may only be given to va_end *)
Record va := Va { va_args : list arg; va_stale : bool }.
(** va_start *)
Definition va_start (args : list arg) : va := Va args false.
(** b[off], b[off + 1], ... = s *)
Fixpoint put_bytes (b : bytes) (off : Z) (s : bytes) : res bytes :=
  match s with [] => Ok b | c :: s => b <- wr b off c ;; put_bytes b (off + 1) s end.
(** vsnprintf (buf, size, f, v), C11 7.21.6.12: [buf] is only used if [size] is not 0 *)
Definition vsnprintf (buf : bytes) (size : Z) (f : bytes) (v : va) : res (Z * bytes * va) :=
  if va_stale v && takes f then UB
  else
    match expand f (va_args v) with
    | None => UB
    | Some out =>
      buf <- (if size =? 0 then Ok buf else put_bytes buf 0 (firstn (Z.to_nat (size - 1)) out ++ [NUL])) ;;
      Ok (Z.of_nat (length out), buf, Va (va_args v) (va_stale v || takes f))
    end.
(** vasprintf (&result, f, v): the new block *)
Definition vasprintf (f : bytes) (v : va) : res (Z * bytes * va) :=
  if va_stale v && takes f then UB
  else match expand f (va_args v) with None => UB | Some out => Ok (Z.of_nat (length out), out ++ [NUL], Va (va_args v) (va_stale v || takes f)) end.
(** axl_new (char, n), axl_decl.h:885: cleared *)
Definition new_chars (n : Z) : bytes := repeat NUL (Z.to_nat n).

(** axl_stream_printf_limit, axl_stream.c:2409-2421 *)
Definition printf_limit : Z := -1.
(** axl_stream_vprintf_len, axl_stream.c:2444-2467 *)
Definition vprintf_len (f : option bytes) (v : va) : res (Z * va) :=
  match f with
  | None => Ok (0, v)
  | Some f => '(n, _, v) <- vsnprintf [] 0 f v ;; Ok (n + 1, v)
  end.
(** axl_stream_printf_len, axl_stream.c:2573-2586 *)
Definition printf_len (f : option bytes) (args : list arg) : res Z := '(n, _) <- vprintf_len f (va_start args) ;; Ok n.
(** axl_stream_printf_buffer, axl_stream.c:2505-2559: what is returned, *real_size and the
    buffer; a negative size is a huge one for vsnprintf *)
Definition printf_buffer (buf : bytes) (size : Z) (f : option bytes) (args : list arg) : res (Z * Z * bytes) :=
  match f with
  | None => Ok (0, 0, buf)
  | Some f =>
    let n := if size <? 0 then size + 2 ^ 64 else size in
    '(result, buf, _) <- vsnprintf buf n f (va_start args) ;;
    let real := result in
    let result := if size - 1 <? result then size - 1 else result in
    Ok (result, real, buf)
  end.
(** axl_stream_strdup_printfv, axl_stream.c:2637-2677; [have] is AXL_HAVE_VASPRINTF *)
Definition strdup_printfv (have : bool) (f : option bytes) (v : va) : res (option bytes) :=
  match f with
  | None => Ok None
  | Some f =>
    if have then '(_, result, _) <- vasprintf f v ;; Ok (Some result)
    else
      '(size, v) <- vprintf_len (Some f) v ;;
      if size =? -1 then Ok None
      else
        let result := new_chars (size + 2) in
        '(_, result, _) <- vsnprintf result (size + 1) f v ;;
        Ok (Some result)
  end.
(** axl_stream_strdup_printf, axl_stream.c:2597-2615 *)
Definition strdup_printf (have : bool) (f : option bytes) (args : list arg) : res (option bytes) :=
  match f with None => Ok None | Some _ => strdup_printfv have f (va_start args) end.
(** axl_stream_strdup_printf_len, axl_stream.c:2694-2747: the block and *chunk_size; the
    arguments are opened again *)
Definition strdup_printf_len (have : bool) (f : option bytes) (args : list arg) : res (option (bytes * Z)) :=
  match f with
  | None => Ok None
  | Some f =>
    if have then '(n, result, _) <- vasprintf f (va_start args) ;; Ok (Some (result, n))
    else
      '(size, _) <- vprintf_len (Some f) (va_start args) ;;
      if size =? -1 then Ok None
      else
        let result := new_chars (size + 2) in
        '(n, result, _) <- vsnprintf result (size + 1) f (va_start args) ;;
        Ok (Some (result, n))
  end.

(** ** Errors *)
(** struct _axlError, axl_error.c *)
Record error := Err { er_code : Z; er_text : option bytes; er_defined : Z }.
Definition mark : Z := -346715.
(** axl_error_new, axl_error.c:139-177, with the values it gets from the stream (RepModel
    has how they are made), or without a stream *)
Definition place_format : bytes :=
  s2b "Error found (stream size: %d, at byte %d (global index: %d), near to ...%s..., while reading: %s): %s" ++ ["010"%char].
Record place := Place { p_size : Z; p_index : Z; p_global : Z; p_near : bytes; p_following : option bytes }.
Definition error_new (have : bool) (code : Z) (text : bytes) (at_ : option place) : res error :=
  match at_ with
  | None => Ok (Err code (Some (text ++ [NUL])) mark)
  | Some p =>
    t <- strdup_printf have (Some place_format)
      [AInt (p_size p); AInt (p_index p); AInt (p_global p); AStr (p_near p); AStr (match p_following p with Some s => s | None => [] end); AStr text] ;;
    Ok (Err code t mark)
  end.
(** axl_error_report, axl_error.c:195-231 *)
Definition error_report (have : bool) (code : Z) (f : option bytes) (args : list arg) : res error :=
  t <- strdup_printfv have f (va_start args) ;;
  Ok (Err code t mark).
(** axl_error_was_ok, axl_error.c:250-258 *)
Definition error_was_ok (e : option error) : bool :=
  match e with None => true | Some e => match er_text e with None => true | Some _ => negb (er_defined e =? mark) end end.
(** axl_error_get_code, axl_error.c:272-278 *)
Definition error_get_code (e : option error) : Z := match e with None => -1 | Some e => er_code e end.
(** axl_error_get, axl_error.c:292-299: the block *)
Definition error_get (e : option error) : option bytes := match e with None => Some (cs (s2b "no string error defined")) | Some e => er_text e end.
