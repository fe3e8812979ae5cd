(** What the parser tells of an error, and what a caller does with what it received (C60). *)
From Verif Require Import Prelude StrModel TreeModel RepModel.
Open Scope Z_scope.

(** [n] is the beginning of what [text] has from place [a] up to [b] *)
Definition begins (text : bytes) (a b : Z) (n : bytes) : Prop :=
  exists rest, firstn (Z.to_nat (b - a)) (skipn (Z.to_nat a) text) = n ++ rest.

(** an error names a place of the text: the size of the text, a byte of it, the beginning
    of what is around that byte, and the beginning of what follows it *)
Definition place_in (text : bytes) (r : report) : Prop :=
  let size := Z.of_nat (length text) in
  exists i near follow, r_where r = Some (size, i, near, follow) /\ 0 <= i <= size /\
    (exists a b, 0 <= a <= i /\ i <= b <= size /\ (a = 0 \/ 10 <= i - a) /\ (b = size \/ 10 <= b - i) /\ begins text a b near) /\
    begins text i (Z.min size (i + 10)) follow.

(** axl_doc_free on the document, or axl_error_free on the error, if there is one *)
Definition settle (m : book) (o : option doc) : res book :=
  match o with
  | Some _ => doc_free m
  | None => match reports m with [] => Ok m | r :: _ => error_free m r end
  end.
