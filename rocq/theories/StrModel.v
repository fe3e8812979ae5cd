(** Model of the string helpers of src/axl_stream.c.

    A memory block is the list of its bytes; an access outside it is [UB].  A
    pointer into a block is an index, or (for read-only parameters) the bytes of
    the block from that position on.  A constant C string argument [s] is the
    block [cs s].  Simplifications: allocation never fails and returns zeroed
    memory (axl_new is calloc); [int] is unbounded; a NULL pointer is [None]
    where the code tests for it, otherwise not modelled. *)
From Verif Require Import Prelude.
Open Scope Z_scope.

(** the block holding the C string [s] *)
Definition cs (s : bytes) : bytes := s ++ [NUL].

(** b[i], b[i] = c *)
Definition rd (b : bytes) (i : Z) : res ascii :=
  if i <? 0 then UB else of_option (nth_error b (Z.to_nat i)).
Fixpoint set_at (b : bytes) (n : nat) (c : ascii) : option bytes :=
  match b, n with
  | [], _ => None
  | _ :: r, O => Some (c :: r)
  | x :: r, S n' => match set_at r n' c with Some r' => Some (x :: r') | None => None end
  end.
Definition wr (b : bytes) (i : Z) (c : ascii) : res bytes :=
  if i <? 0 then UB else of_option (set_at b (Z.to_nat i) c).
(** b + i (one past the end is a valid pointer) *)
Definition ptr_at (b : bytes) (i : Z) : res bytes :=
  if (i <? 0) || (Z.of_nat (length b) <? i) then UB else Ok (skipn (Z.to_nat i) b).
(** memcpy (b + off, src, |src|) *)
Definition memcpy_to (b : bytes) (off : Z) (src : bytes) : res bytes :=
  if (off <? 0) || (Z.of_nat (length b) <? off + Z.of_nat (length src)) then UB
  else Ok (firstn (Z.to_nat off) b ++ src ++ skipn (Z.to_nat off + length src) b).
(** the [n] bytes at b + off *)
Definition mem_sub (b : bytes) (off n : Z) : res bytes :=
  if (off <? 0) || (n <? 0) || (Z.of_nat (length b) <? off + n) then UB
  else Ok (firstn (Z.to_nat n) (skipn (Z.to_nat off) b)).

(** strlen of libc *)
Fixpoint c_strlen (b : bytes) : res Z :=
  match b with
  | [] => UB
  | c :: r => if Ascii.eqb c NUL then Ok 0 else (n <- c_strlen r ;; Ok (n + 1))
  end.

(** the _memcmp macro, axl_decl.h:951-960, and axl_memcmp, axl_stream.c:3487-3492 *)
Fixpoint memcmp_loop (a b : bytes) (i size : Z) : res bool :=
  match a with
  | [] => UB
  | x :: a' =>
    if Ascii.eqb x NUL then Ok false
    else match b with
    | [] => UB
    | y :: b' =>
      if Ascii.eqb y NUL then Ok false
      else if negb (Ascii.eqb x y) then Ok false
      else if i + 1 =? size then Ok true
      else memcmp_loop a' b' (i + 1) size
    end
  end.
Definition axl_memcmp (a b : bytes) (size : Z) : res bool := memcmp_loop a b 0 size.

(** axl_cmp, axl_stream.c:3411-3438 *)
Fixpoint cmp_loop (a b : bytes) : res bool :=
  match a, b with
  | x :: a', y :: b' =>
    if Ascii.eqb x NUL then Ok (Ascii.eqb y NUL)
    else if Ascii.eqb y NUL then Ok false
    else if negb (Ascii.eqb x y) then Ok false
    else cmp_loop a' b'
  | _, _ => UB
  end.
Definition axl_cmp (a b : option bytes) : res bool :=
  match a, b with
  | Some a, Some b => cmp_loop a b
  | _, _ => Ok false
  end.

(** axl_stream_cmp, axl_stream.c:2020-2039 *)
Definition stream_cmp (a b : option bytes) (size : Z) : res bool :=
  match a, b with
  | Some a, Some b =>
    if size <? 0 then Ok false
    else
      x <- rd a 0 ;; y <- rd b 0 ;;
      if Ascii.eqb x y then
        if size =? 1 then Ok true
        else (a1 <- ptr_at a 1 ;; b1 <- ptr_at b 1 ;; axl_memcmp a1 b1 (size - 1))
      else Ok false
  | _, _ => Ok false
  end.

(** tolower of the C locale, and strncasecmp of libc *)
Definition to_lower (c : ascii) : ascii :=
  let n := N_of_ascii c in
  if ((65 <=? n) && (n <=? 90))%N then ascii_of_N (n + 32) else c.
Definition to_upper (c : ascii) : ascii :=
  let n := N_of_ascii c in
  if ((97 <=? n) && (n <=? 122))%N then ascii_of_N (n - 32) else c.
Fixpoint strncasecmp0 (a b : bytes) (n : nat) : res bool :=
  match n with
  | O => Ok true
  | S n' =>
    match a, b with
    | x :: a', y :: b' =>
      if negb (Ascii.eqb (to_lower x) (to_lower y)) then Ok false
      else if Ascii.eqb x NUL then Ok true
      else strncasecmp0 a' b' n'
    | _, _ => UB
    end
  end.
(** axl_stream_casecmp, axl_stream.c:2056-2072 *)
Definition stream_casecmp (a b : option bytes) (size : Z) : res bool :=
  match a, b with
  | Some a, Some b => if size <? 0 then Ok false else strncasecmp0 a b (Z.to_nat size)
  | _, _ => Ok false
  end.
(** axl_casecmp, axl_stream.c:3450-3467 *)
Definition axl_casecmp (a b : option bytes) : res bool :=
  match a, b with
  | Some x, Some y =>
    n <- c_strlen x ;; m <- c_strlen y ;;
    if n =? m then stream_casecmp a b n else Ok false
  | _, _ => Ok false
  end.

(** axl_list_equal_string, axl_list.c:426-444 *)
Definition c_list_equal_string (a b : option bytes) : res Z :=
  match a, b with
  | Some x, Some y =>
    n <- c_strlen x ;; m <- c_strlen y ;;
    if n =? m then (r <- stream_cmp a b n ;; Ok (if r then 0 else 1)) else Ok 1
  | _, _ => Ok 1
  end.

(** axl_stream_is_white_space, axl_stream.c:1931-1948 *)
Definition is_ws (c : ascii) : bool :=
  (c =? " ")%char || (c =? "010")%char || (c =? "009")%char || (c =? "013")%char.

(** leading spaces, axl_stream.c:2216-2226 *)
Fixpoint skip_ws (fuel : nat) (b : bytes) (i : Z) : res Z :=
  match fuel with
  | O => NoFuel
  | S fuel' =>
    c <- rd b i ;;
    if Ascii.eqb c NUL then Ok i
    else if negb (is_ws c) then Ok i
    else skip_ws fuel' b (i + 1)
  end.
(** trailing spaces, axl_stream.c:2241-2250 *)
Fixpoint skip_ws_back (fuel : nat) (b : bytes) (i : Z) : res Z :=
  match fuel with
  | O => NoFuel
  | S fuel' =>
    c <- rd b i ;;
    if Ascii.eqb c NUL then Ok i
    else if negb (is_ws c) then Ok i
    else skip_ws_back fuel' b (i - 1)
  end.
(** b[dst + k] = b[src + k] for k = 0 .. n-1: the copying loops of
    axl_stream.c:2257-2264 and 2326-2330 *)
Fixpoint move_loop (n : nat) (k : Z) (b : bytes) (dst src : Z) : res bytes :=
  match n with
  | O => Ok b
  | S n' =>
    c <- rd b (src + k) ;;
    b <- wr b (dst + k) c ;;
    move_loop n' (k + 1) b dst src
  end.
(** axl_stream_trim_with_size, axl_stream.c:2197-2272: the block and the number of
    bytes trimmed *)
Definition stream_trim_with_size (b : bytes) : res (bytes * Z) :=
  n <- c_strlen b ;;
  if n =? 0 then Ok (b, 0)
  else
    it <- skip_ws (S (length b)) b 0 ;;
    if it =? n then (b <- wr b 0 NUL ;; Ok (b, it))
    else
      let total := n - 1 in
      e <- skip_ws_back (S (length b)) b total ;;
      let total := total - e + it in
      b <- move_loop (Z.to_nat (e - it + 1)) 0 b 0 it ;;
      b <- wr b (e - it + 1) NUL ;;
      Ok (b, total).

(** axl_stream_remove, axl_stream.c:2292-2351 *)
Fixpoint remove_loop (fuel : nat) (b v : bytes) (vlen : Z) (first : bool) (it length : Z) : res bytes :=
  match fuel with
  | O => NoFuel
  | S fuel' =>
    if it <? length then
      p <- ptr_at b it ;;
      m <- axl_memcmp p v vlen ;;
      if (m : bool) then
        b <- move_loop (Z.to_nat (length - it - vlen)) 0 b it (it + vlen) ;;
        let length := length - vlen in
        if first then wr b length NUL
        else remove_loop fuel' b v vlen first it length
      else remove_loop fuel' b v vlen first (it + 1) length
    else wr b length NUL
  end.
Definition stream_remove (b v : bytes) (first : bool) : res bytes :=
  n <- c_strlen b ;;
  m <- c_strlen v ;;
  if n =? m then
    (e <- axl_cmp (Some b) (Some v) ;; if (e : bool) then wr b 0 NUL else Ok b)
  else if n <? m then Ok b
  else remove_loop (S (S (Z.to_nat n))) b v m first 0 n.

(** the separator found at [p], with its length: axl_stream.c:2809-2827 and
    2845-2879 *)
Fixpoint find_sep (p : bytes) (seps : list bytes) : res (option Z) :=
  match seps with
  | [] => Ok None
  | s :: r =>
    n <- c_strlen s ;;
    m <- axl_memcmp p s n ;;
    if (m : bool) then Ok (Some n) else find_sep p r
  end.
(** the counting pass of axl_stream_split, axl_stream.c:2805-2831 *)
Fixpoint split_count (fuel : nat) (b : bytes) (seps : list bytes) (index count : Z) : res Z :=
  match fuel with
  | O => NoFuel
  | S fuel' =>
    c <- rd b index ;;
    if Ascii.eqb c NUL then Ok count
    else
      p <- ptr_at b index ;;
      o <- find_sep p seps ;;
      match o with
      | Some n => split_count fuel' b seps (index + n - 1 + 1) (count + 1)
      | None => split_count fuel' b seps (index + 1) count
      end
  end.
(** writing result[count]; UB outside the array *)
Fixpoint set_slot (a : list (option bytes)) (n : nat) (v : bytes) : option (list (option bytes)) :=
  match a, n with
  | [], _ => None
  | _ :: r, O => Some (Some v :: r)
  | x :: r, S n' => match set_slot r n' v with Some r' => Some (x :: r') | None => None end
  end.
(** the second pass, axl_stream.c:2837-2898; a piece is given by the bytes copied
    into it (its terminator is the zero of the fresh block) *)
Fixpoint split_copy (fuel : nat) (b : bytes) (seps : list bytes) (res : list (option bytes))
                    (count : nat) (index prev : Z) : Prelude.res (list (option bytes)) :=
  match fuel with
  | O => NoFuel
  | S fuel' =>
    c <- rd b index ;;
    if Ascii.eqb c NUL then
      if index =? prev then Ok res
      else (piece <- mem_sub b prev (index - prev) ;; of_option (set_slot res count piece))
    else
      p <- ptr_at b index ;;
      o <- find_sep p seps ;;
      match o with
      | None => split_copy fuel' b seps res count (index + 1) prev
      | Some n =>
        piece <- mem_sub b prev (index - prev) ;;
        res <- of_option (set_slot res count piece) ;;
        d <- rd b (index + n) ;;
        if Ascii.eqb d NUL then of_option (set_slot res (S count) [])
        else split_copy fuel' b seps res (S count) (index + n - 1 + 1) (index + n)
      end
  end.
(** axl_stream_split, axl_stream.c:2776-2899 (separator_num > 0, checked by the
    code, is [seps <> []]) *)
Definition stream_split (b : bytes) (seps : list bytes) : res (list (option bytes)) :=
  count <- split_count (S (length b)) b seps 0 0 ;;
  split_copy (S (length b)) b seps (repeat None (Z.to_nat count + 2)) 0 0 0.

(** the strings of a NULL-terminated array; UB when no NULL is met *)
Fixpoint strv (a : list (option bytes)) : res (list bytes) :=
  match a with
  | [] => UB
  | None :: _ => Ok []
  | Some s :: r => l <- strv r ;; Ok (s :: l)
  end.

(** axl_stream_clean_split, axl_stream.c:2909-2948 on the strings before the NULL:
    an empty string is released and the rest moved one place down *)
Fixpoint clean_split (l : list bytes) : list bytes :=
  match l with
  | [] => []
  | s :: r => if Nat.eqb (length s) 0 then clean_split r else s :: clean_split r
  end.

(** the copying loop of axl_stream_join, axl_stream.c:3005-3031 *)
Fixpoint join_loop (l : list bytes) (sep : bytes) (next_sep : bool) (b : bytes) (n : Z) : res bytes :=
  match l with
  | [] => Ok b
  | s :: r =>
    '(b, n) <- (if next_sep then (b <- memcpy_to b n sep ;; Ok (b, n + Z.of_nat (length sep)))
                else Ok (b, n)) ;;
    b <- memcpy_to b n s ;;
    join_loop r sep true b (n + Z.of_nat (length s))
  end.
(** axl_stream_join, axl_stream.c:2966-3035, on the strings before the NULL;
    [None] for a NULL result.  One round of [join_loop] is one or two rounds of
    the C loop (separator then string). *)
Definition stream_join (l : list bytes) (sep : bytes) : res (option bytes) :=
  match l with
  | [] => Ok None
  | [s] => Ok (Some (cs s))
  | _ =>
    let total := fold_right (fun s n => Z.of_nat (length s) + n) 0 l
                 + Z.of_nat (length sep) * (Z.of_nat (length l) - 1) + 1 in
    b <- join_loop l sep false (repeat NUL (Z.to_nat total)) 0 ;;
    Ok (Some b)
  end.

(** the counting loop of axl_stream_replace, axl_stream.c:3092-3107 *)
Fixpoint replace_count (fuel : nat) (src str : bytes) (slen tlen it count : Z) : res Z :=
  match fuel with
  | O => NoFuel
  | S fuel' =>
    if it + tlen - 1 <? slen then
      p <- ptr_at src it ;;
      m <- axl_memcmp p str tlen ;;
      if (m : bool) then replace_count fuel' src str slen tlen (it + tlen) (count + 1)
      else replace_count fuel' src str slen tlen (it + 1) count
    else Ok count
  end.
(** the copying loop, axl_stream.c:3121-3141 *)
Fixpoint replace_copy (fuel : nat) (src str rep out : bytes) (slen tlen rlen it it2 : Z) : res bytes :=
  match fuel with
  | O => NoFuel
  | S fuel' =>
    if it <? slen then
      m <- (if it + tlen - 1 <? slen then (p <- ptr_at src it ;; axl_memcmp p str tlen) else Ok false) ;;
      if (m : bool) then
        r <- mem_sub rep 0 rlen ;;
        out <- memcpy_to out it2 r ;;
        replace_copy fuel' src str rep out slen tlen rlen (it + tlen) (it2 + rlen)
      else
        c <- rd src it ;;
        out <- wr out it2 c ;;
        replace_copy fuel' src str rep out slen tlen rlen (it + 1) (it2 + 1)
    else Ok out
  end.
(** axl_stream_replace, axl_stream.c:3070-3148: the final block of *source and the
    returned size; a size of -1 asks for strlen *)
Definition len_or_strlen (b : bytes) (n : Z) : res Z := if n =? -1 then c_strlen b else Ok n.
Definition stream_replace (src : bytes) (slen : Z) (str : bytes) (tlen : Z) (rep : bytes) (rlen : Z)
  : res (bytes * Z) :=
  slen <- len_or_strlen src slen ;;
  tlen <- len_or_strlen str tlen ;;
  rlen <- len_or_strlen rep rlen ;;
  let fuel := S (S (length src)) in
  count <- replace_count fuel src str slen tlen 0 0 ;;
  if count =? 0 then Ok (src, slen)
  else
    let n := slen - tlen * count + rlen * count in
    out <- replace_copy fuel src str rep (repeat NUL (Z.to_nat (n + 1))) slen tlen rlen 0 0 ;;
    Ok (out, n).

(** axl_stream_concat, axl_stream.c:3180-3222, on two non-NULL strings *)
Definition stream_concat (a b : bytes) : res bytes :=
  n <- c_strlen a ;; m <- c_strlen b ;;
  let out := repeat NUL (Z.to_nat (n + m + 1)) in
  x <- mem_sub a 0 n ;;
  out <- memcpy_to out 0 x ;;
  y <- mem_sub b 0 m ;;
  memcpy_to out n y.

(** __axl_stream_common_to, axl_stream.c:3284-3302, C locale *)
Fixpoint common_to (f : ascii -> ascii) (b : bytes) : res bytes :=
  match b with
  | [] => UB
  | c :: r => if Ascii.eqb c NUL then Ok b else (r <- common_to f r ;; Ok (f c :: r))
  end.
