(** Encodings: babel/axl_babel.c and axl_stream_decode of src/axl_stream.c.

    Simplification: the logs are dropped; [int] is unbounded. *)
From Coq Require Import NArith.
From Verif Require Import Prelude Arr.
Open Scope list_scope.

Definition byte_at (content : bytes) (i : nat) : res N := c <- aget content i ;; Ok (N_of_ascii c).
Definition inr (lo hi v : N) : bool := (N.leb lo v && N.leb v hi)%bool.

(** The loop of axl_babel_check_utf8_content, babel/axl_babel.c:491-574; the result is the
    returned value and what is stored through [index_error] *)
Fixpoint utf8_loop (fuel : nat) (content : bytes) (len it : nat) : res (bool * nat) :=
  if it <? len then
    match fuel with
    | O => NoFuel
    | S fuel =>
      v <- byte_at content it ;;
      if inr 240 247 v && (it + 1 <? len) then
        v <- byte_at content (it + 1) ;;
        if inr 128 191 v && (it + 2 <? len) then
          v <- byte_at content (it + 2) ;;
          if inr 128 191 v && (it + 3 <? len) then
            v <- byte_at content (it + 3) ;;
            if inr 128 191 v then utf8_loop fuel content len (it + 4) else Ok (false, it)
          else Ok (false, it)
        else Ok (false, it)
      else if inr 224 239 v && (it + 1 <? len) then
        v <- byte_at content (it + 1) ;;
        if inr 128 191 v && (it + 2 <? len) then
          v <- byte_at content (it + 2) ;;
          if inr 128 191 v then utf8_loop fuel content len (it + 3) else Ok (false, it)
        else Ok (false, it)
      else if inr 192 223 v && (it + 1 <? len) then
        v <- byte_at content (it + 1) ;;
        if inr 128 191 v then utf8_loop fuel content len (it + 2) else Ok (false, it)
      else if N.leb v 127 then utf8_loop fuel content len (it + 1)
      else Ok (false, it)
    end
  else Ok (true, 0).
(** strlen: the buffer must contain a NUL *)
Definition strlen (b : bytes) : res nat := if existsb (Ascii.eqb NUL) b then Ok (length (cstr b)) else UB.
(** axl_babel_check_utf8_content, babel/axl_babel.c:473-575 *)
Definition check_utf8 (content : bytes) (content_length : Z) : res (bool * nat) :=
  if (content_length <? -1)%Z then Ok (false, 0)
  else
    len <- (if (content_length =? -1)%Z then strlen content else Ok (Z.to_nat content_length)) ;;
    utf8_loop (S len) content len 0.

(** axlBabelTable, babel/axl_babel.h:57-67: size and buffer *)
Definition table := list (nat * list N).
(** babel/axl_babel.c:285-293.  The output is written in order: it is given as the bytes before
    position it2, the last one first, and those that follow *)
Fixpoint copy_entry (n : nat) (buf : list N) (done rest : bytes) : res (bytes * bytes) :=
  match n with
  | O => Ok (done, rest)
  | S n =>
    match buf, rest with
    | b :: buf, _ :: rest => copy_entry n buf (ascii_of_N b :: done) rest
    | _, _ => UB
    end
  end.
(** babel/axl_babel.c:271-298; [n] is what is left of source_size, [source] what follows position
    [it], [room] is output_size - it2 *)
Fixpoint conv_loop (n : nat) (t : table) (source : bytes) (it : nat) (done rest : bytes) (room it2 : nat) : res (bytes * nat * nat) :=
  match n with
  | O => Ok (rev_append done rest, it, it2)
  | S n =>
    if 0 <? room then
      match source with
      | [] => UB
      | c :: source =>
        ' (size, buf) <- aget t (N.to_nat (N_of_ascii c)) ;;
        if room <? size then Ok (rev_append done rest, it, it2)
        else
          ' (done, rest) <- copy_entry size buf done rest ;;
          conv_loop n t source (S it) done rest (room - size) (size + it2)
      end
    else Ok (rev_append done rest, it, it2)
  end.
(** axl_babel_single_to_utf8, babel/axl_babel.c:252-312: the output, output_converted,
    the returned value and remain_source_index (unchanged when 1 is returned) *)
Definition single_to_utf8 (t : table) (source : bytes) (source_size : nat) (out : bytes) (output_size remain : nat) : res (bytes * nat * nat * nat) :=
  ' (out, it, it2) <- conv_loop source_size t source 0 [] out output_size 0 ;;
  if Nat.eqb it source_size then Ok (out, it2, 1, remain) else Ok (out, it2, 2, it).

(** The fields decode_temp, decode_temp_last and decode_temp_remain of the stream *)
Record decoder := Decoder { k_temp : bytes; k_last : nat; k_remain : nat }.
(** src/axl_stream.c:3592-3595 *)
Fixpoint pack_loop (n : nat) (temp : bytes) (remain i : nat) : res bytes :=
  match n with
  | O => Ok temp
  | S n => c <- aget temp (remain + i) ;; temp <- aset temp i c ;; pack_loop n temp remain (i + 1)
  end.
(** axl_stream_decode, src/axl_stream.c:3520-3607, with axl_babel_single_to_utf8 as decode
    function; decode_temp_index is 0 between calls.  [None]: axl_false is returned *)
Definition stream_decode (t : table) (k : decoder) (out : bytes) (output_size : nat) : res (option (decoder * bytes * nat)) :=
  ' (out, decoded, result, remain) <- single_to_utf8 t (k_temp k) (k_last k) out output_size (k_remain k) ;;
  if Nat.eqb result 1 then Ok (Some (Decoder (k_temp k) 0 remain, out, decoded))
  else
    let size := k_last k - remain in
    if Nat.eqb size 0 then Ok None
    else temp <- pack_loop size (k_temp k) remain 0 ;; Ok (Some (Decoder temp size remain, out, decoded)).
