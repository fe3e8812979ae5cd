(** What parsing a file is expected to do: the same as parsing its content. *)
From Verif Require Import Prelude StreamModel.

(** the four XML white space bytes *)
Definition blank (c : ascii) : Prop := In c [" "; "009"; "010"; "013"]%char.

(** In the last bytes of the content there is no text that starts with white space after a
    tag: after a [>], white space is followed by another tag, by nothing or by a byte that has
    at least eight bytes after it *)
Definition settled (content : bytes) : Prop :=
  forall before gap c rest, content = before ++ s2b ">" ++ gap ++ [c] ++ rest ->
    gap <> [] -> Forall blank gap -> ~ blank c -> c <> "<"%char -> (8 <= length rest)%nat.

(** The content fits in the buffer of a file stream (8192 bytes, axl_stream.c:68) *)
Definition fits (content : bytes) : Prop := (N.of_nat (length content) <= 8192)%N.

(** ** files of any size *)
Definition bom : bytes := ["239"; "187"; "191"]%char.
(** an XML declaration from [<?] on: its version comes first and is 1.0 *)
Definition declares_version (s : bytes) : Prop :=
  exists gap gap' quote rest,
    s = s2b "<?xml" ++ gap ++ s2b "version=" ++ gap' ++ [quote] ++ s2b "1.0" ++ [quote] ++ rest /\
    Forall blank gap /\ Forall blank gap' /\ (quote = "034"%char \/ quote = "039"%char).
(** The content ends with white space, as a file that ends with a line end does; it
    has no comment, no CDATA section and no processing instruction except the XML
    declaration at the start; and where a tag is followed by white space, this white
    space is followed by another tag or by nothing (text starts with its first
    non-blank byte) *)
Record regular (content : bytes) : Prop := Regular {
  reg_end : exists body w, content = body ++ [w] /\ blank w;
  reg_comment : forall u v, content <> u ++ s2b "<!--" ++ v;
  reg_cdata : forall u v, content <> u ++ s2b "<![CDATA[" ++ v;
  reg_pi : forall u v, content = u ++ s2b "<?" ++ v -> (u = [] \/ u = bom) /\ declares_version (s2b "<?" ++ v);
  reg_text : forall u gap c v, content = u ++ s2b ">" ++ gap ++ [c] ++ v ->
    gap <> [] -> Forall blank gap -> ~ blank c -> c = "<"%char
}.
