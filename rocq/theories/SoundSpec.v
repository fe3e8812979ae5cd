(** What the parser takes for an element: a wider grammar than XML, with the tree that
    belongs to the text.  A NUL inside a name, an attribute value or a text ends it
    ([cstr]). *)
From Coq Require Import Permutation.
From Verif Require Import Prelude AttrModel TreeModel StrSpec XmlSpec.
Open Scope list_scope.

Inductive pi_loose : bytes -> pi -> Prop :=
| pi_loose_bare t : ~ occurs (str "?>") t -> pi_loose (str "<?" ++ t ++ str "?>") (Pi (cstr t) None)
| pi_loose_full t w c e : ~ occurs (str "?>") t -> white w = true -> ~ occurs (str "?>") c -> e = [] \/ e = [sp] ->
    pi_loose (str "<?" ++ t ++ [w] ++ c ++ e ++ str "?>") (Pi (cstr t) (Some (cstr c))).

(** white space, comments and processing instructions *)
Inductive misc_loose : bytes -> list item -> Prop :=
| misc_loose_nil : misc_loose [] []
| misc_loose_blank w t l : blank w -> misc_loose t l -> misc_loose (w ++ t) l
| misc_loose_comment c t l : is_comment c -> misc_loose t l ->
    misc_loose (str "<!--" ++ c ++ str "-->" ++ t) (IComment c :: l)
| misc_loose_pi s p t l : pi_loose s p -> misc_loose t l -> misc_loose (s ++ t) (IPi p :: l).

(** attributes; a value whose closing quote is missing is none *)
Inductive attrs_loose : bytes -> list (bytes * option bytes) -> Prop :=
| attrs_loose_nil w : blank w -> attrs_loose w []
| attrs_loose_more w k q v t l : blank w -> has "=" k = false -> cstr k <> [] -> quote q -> has q v = false -> attrs_loose t l ->
    attrs_loose (w ++ k ++ str "=" ++ [q] ++ v ++ [q] ++ t) ((cstr k, Some (cstr v)) :: l)
| attrs_loose_open w k q t l : blank w -> has "=" k = false -> cstr k <> [] -> quote q -> has q t = false -> attrs_loose t l ->
    attrs_loose (w ++ k ++ str "=" ++ [q] ++ t) ((cstr k, None) :: l).

(** start tags without their first character; [true]: the element is empty *)
Inductive tag_loose : bytes -> bytes -> list (bytes * option bytes) -> bool -> Prop :=
| tag_loose_plain t : forallb (fun c => negb (white c)) t = true -> has ">" t = false -> cstr t <> [] -> last (cstr t) NUL <> "/"%char ->
    tag_loose (t ++ str ">") (cstr t) [] false
| tag_loose_slash t name : forallb (fun c => negb (white c)) t = true -> has ">" t = false -> cstr t = name ++ str "/" ->
    tag_loose (t ++ str ">") name [] true
| tag_loose_attrs t w r ats e b : forallb (fun c => negb (white c)) t = true -> has ">" t = false -> cstr t <> [] -> white w = true ->
    attrs_loose r ats -> (e = str ">" /\ b = false) \/ (e = str "/>" /\ b = true) ->
    tag_loose (t ++ [w] ++ r ++ e) (cstr t) ats b.

Definition close_loose (s name : bytes) : Prop :=
  exists t w, s = str "</" ++ t ++ w ++ str ">" /\ has ">" (t ++ w) = false /\ t ++ w <> [] /\
    (w = [] \/ exists c, w = [c] /\ white c = true) /\ cstr t = name.

(** the attributes of an element are those of its tag, no name twice *)
Definition attrs_of (a : attrs) (ats : list (bytes * option bytes)) : Prop :=
  exists l, attr_foreach (fun _ _ => false) a = Ok l /\ Permutation l ats /\ NoDup (map fst ats).

(** elements without their first character *)
Inductive elem_loose : bytes -> node -> Prop :=
| elem_loose_empty o name ats a : tag_loose o name ats true -> attrs_of a ats -> elem_loose o (Node name a [])
| elem_loose_full o name ats a body items c : tag_loose o name ats false -> attrs_of a ats -> body_loose body items ->
    close_loose c name -> elem_loose (o ++ body ++ c) (Node name a items)
with body_loose : bytes -> list item -> Prop :=
| body_loose_nil : body_loose [] []
| body_loose_misc s l t m : misc_loose s l -> body_loose t m -> body_loose (s ++ t) (l ++ m)
| body_loose_text s t m : has "<" s = false -> ~ s = [] -> body_loose t m -> body_loose (s ++ t) (IContent (cstr s) :: m)
| body_loose_cdata s t m : ~ occurs (str "]]>") s -> body_loose t m ->
    body_loose (str "<![CDATA[" ++ s ++ str "]]>" ++ t) (ICdata (cstr s) :: m)
(** after its [<] the tag may have white space, comments, processing instructions and
    one more [<] *)
| body_loose_elem s l b e n t m : misc_loose s l -> b = [] \/ b = str "<" -> elem_loose e n -> body_loose t m ->
    body_loose (str "<" ++ s ++ b ++ e ++ t) (l ++ INode n :: m).

(** the XML declaration; near the end of the text its parts may be missing *)
Definition field_loose (name t : bytes) : Prop :=
  t = [] \/ exists q v q', t = name ++ str "=" ++ [q] ++ v ++ [q'] /\ quote q /\ quote q' /\ has "'" v = false /\ has "034" v = false.
Definition version_loose (t : bytes) : Prop := t = [] \/ exists q, quote q /\ t = [q] ++ str "1.0" ++ [q].
Inductive decl_loose : bytes -> Prop :=
| Decl_loose w1 tv w2 tn w3 te w4 ts w5 : blank w1 -> tv = [] \/ tv = str "version=" -> blank w2 -> version_loose tn -> blank w3 ->
    field_loose (str "encoding") te -> blank w4 -> field_loose (str "standalone") ts -> blank w5 ->
    decl_loose (str "<?xml" ++ w1 ++ tv ++ w2 ++ tn ++ w3 ++ te ++ w4 ++ ts ++ w5 ++ str "?>").

(** what comes before the root element *)
Inductive head_loose : bytes -> Prop :=
| Head_loose b d m1 l1 t m2 l2 : b = [] \/ b = bom -> d = [] \/ decl_loose d -> misc_loose m1 l1 ->
    doctype_text t -> misc_loose m2 l2 -> head_loose (b ++ d ++ m1 ++ t ++ m2).

(** everywhere in a tree *)
Inductive every (P : node -> Prop) : node -> Prop :=
| Every name a l : P (Node name a l) -> every_items P l -> every P (Node name a l)
with every_items (P : node -> Prop) : list item -> Prop :=
| every_nil : every_items P []
| every_elem n l : every P n -> every_items P l -> every_items P (INode n :: l)
| every_other i l : (forall n, i <> INode n) -> every_items P l -> every_items P (i :: l).

(** each quote after an equals sign has a second one somewhere *)
Definition closed_quotes (s : bytes) : Prop := forall u q v, s = u ++ str "=" ++ [q] ++ v -> quote q -> has q v = true.
(** all attributes have a value; all attributes have different names *)
Definition valued (a : attrs) : Prop := exists l, attr_foreach (fun _ _ => false) a = Ok l /\ Forall (fun p => snd p <> None) l.
Definition distinct (a : attrs) : Prop := exists l, attr_foreach (fun _ _ => false) a = Ok l /\ NoDup (map fst l).
