(** Documents in other encodings: what their names stand for, and what such a document is. *)
From Coq Require Import NArith.
From Verif Require Import Prelude StrSpec AttrModel TreeModel XmlSpec BabelPoints BabelSpec.
Open Scope nat_scope.
Open Scope list_scope.

(** How the name of an encoding is read: without the white space around it and without
    [-] and [_], the case of the letters being of no importance *)
Definition kept (c : ascii) : bool := negb (Ascii.eqb c "-") && negb (Ascii.eqb c "_").
Definition reads (e name : bytes) : Prop := exists t, trimmed e t /\ Forall2 same_letter (filter kept t) name.
(** The single byte encodings, with their code points *)
Definition charsets : list (bytes * list (option N)) :=
  [(str "iso88591", points_1); (str "iso88592", points_2); (str "iso88593", points_3); (str "iso88594", points_4);
   (str "iso88595", points_5); (str "iso88596", points_6); (str "iso88597", points_7); (str "iso88598", points_8);
   (str "iso88599", points_9); (str "iso885915", points_15)].
(** [e] is a name of the encoding with the code points [p] *)
Definition charset (e : bytes) (p : list (option N)) : Prop := exists name, In (name, p) charsets /\ reads e name.

(** What follows the declaration, up to the end of the root *)
Inductive body_text : bytes -> list pi -> xnode -> Prop :=
| Body m1 tt m2 l te x : misc_text false m1 [] -> doctype_text tt -> misc_text true m2 l -> elem_text te x ->
    body_text (m1 ++ tt ++ m2 ++ te) l x.

(** Bytes of ASCII *)
Definition is_ascii (c : ascii) : Prop := (N_of_ascii c < 128)%N.
(** The start of a document as Babel wants it: at least four bytes, the first being [<] and
    the second neither [<] nor [>] *)
Definition begins (content : bytes) : Prop :=
  4 <= length content /\ exists c r, content = "<"%char :: c :: r /\ c <> "<"%char /\ c <> ">"%char.
(** The same document, with another encoding *)
Definition recoded (e : bytes) (d : doc) : doc := Doc (d_root d) (Some e) (d_standalone d) (d_pis d).
Definition recoded_result (e : bytes) (r : res (option doc)) : res (option doc) :=
  match r with
  | Ok (Some d) => Ok (Some (recoded e d))
  | r => r
  end.
