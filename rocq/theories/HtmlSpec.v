(** What a browser shows of a page, and the documents for which axl-knife --htmlize promises
    something.  Independent of the program. *)
From Verif Require Import Prelude StrSpec AttrModel TreeModel XmlSpec.
Open Scope nat_scope.
Open Scope list_scope.

(** a tag of HTML: a letter or a slash and a letter after the first bracket, no brackets inside *)
Definition letter (c : ascii) : Prop := (65 <= N_of_ascii c <= 90 \/ 97 <= N_of_ascii c <= 122)%N.
Definition tag (g : bytes) : Prop :=
  exists c b, letter c /\ (g = str "<" ++ c :: b ++ str ">" \/ g = str "</" ++ c :: b ++ str ">") /\
    has "<" b = false /\ has ">" b = false.

(** [displays page t]: preformatted text as a browser shows it: the tags are not seen, the
    character references are replaced, all other characters are there (a part of HTML) *)
Inductive displays : bytes -> bytes -> Prop :=
| displays_end : displays [] []
| displays_char c s t : c <> "<"%char -> c <> "&"%char -> displays s t -> displays (c :: s) (c :: t)
| displays_lt s t : displays s t -> displays (str "&lt;" ++ s) (str "<" ++ t)
| displays_gt s t : displays s t -> displays (str "&gt;" ++ s) (str ">" ++ t)
| displays_amp s t : displays s t -> displays (str "&amp;" ++ s) (str "&" ++ t)
| displays_tag g s t : tag g -> displays s t -> displays (g ++ s) t.

(** no references in texts and values, no double quotes and brackets in values, no processing
    instructions and references; an element without attributes is not empty *)
Definition plain_text (s : bytes) : Prop := has "&" s = false.
Definition plain_attr (p : bytes * option bytes) : Prop :=
  forall v, snd p = Some v -> has "&" v = false /\ has "<" v = false /\ has "034" v = false.
Inductive showable : xnode -> Prop :=
| Showable name ats l : Forall plain_attr ats -> ats <> [] \/ l <> [] -> showable_items l -> showable (XNode name ats l)
with showable_items : list xitem -> Prop :=
| showable_nil : showable_items []
| showable_elem x l : showable x -> showable_items l -> showable_items (XElem x :: l)
| showable_text s l : plain_text s -> showable_items l -> showable_items (XText s :: l)
| showable_cdata s l : plain_text s -> showable_items l -> showable_items (XCdata s :: l)
| showable_comment s l : plain_text s -> showable_items l -> showable_items (XComment s :: l).

(** a class for the page *)
Definition class_ok (cls : option bytes) : Prop := forall v, cls = Some v -> has "<" v = false /\ has ">" v = false.
