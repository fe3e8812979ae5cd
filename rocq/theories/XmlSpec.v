(** Documents as a user sees them, and what they look like as text.  Independent of
    the parser and of the serialiser. *)
From Coq Require Import Permutation.
From Verif Require Import Prelude AttrModel TreeModel StrSpec.
Open Scope list_scope.

(** ** trees *)
Inductive xnode := XNode (name : bytes) (ats : list (bytes * option bytes)) (items : list xitem)
with xitem :=
| XElem (n : xnode)
| XText (t : bytes)
| XCdata (t : bytes)
| XPi (name : bytes) (content : option bytes)
| XComment (t : bytes)
| XRef (t : bytes).
Definition xitems (x : xnode) : list xitem := let '(XNode _ _ l) := x in l.

(** [shows n x]: looking at the node [n] through the API one finds [x]; the attributes
    come from axl_node_attr_foreach and their order does not matter *)
Inductive shows : node -> xnode -> Prop :=
| Shows name a items ats l xs :
    attr_foreach (fun _ _ => false) a = Ok l -> Permutation l ats -> shows_items items xs ->
    shows (Node name a items) (XNode name ats xs)
with shows_items : list item -> list xitem -> Prop :=
| shows_nil : shows_items [] []
| shows_elem n x l m : shows n x -> shows_items l m -> shows_items (INode n :: l) (XElem x :: m)
| shows_text t l m : shows_items l m -> shows_items (IContent t :: l) (XText t :: m)
| shows_cdata t l m : shows_items l m -> shows_items (ICdata t :: l) (XCdata t :: m)
| shows_pi p l m : shows_items l m -> shows_items (IPi p :: l) (XPi (pi_name p) (pi_content p) :: m)
| shows_comment t l m : shows_items l m -> shows_items (IComment t :: l) (XComment t :: m)
| shows_ref t l m : shows_items l m -> shows_items (IRef t :: l) (XRef t :: m).

Definition str (s : string) : bytes := s2b s.
Definition sp : ascii := " "%char.
Definition has (c : ascii) (s : bytes) : bool := existsb (Ascii.eqb c) s.

(** ** the text written for a tree *)
(** how it is laid out: [None] plain, [Some n] one element per line with [n] columns
    for each level *)
Definition indent (lay : option nat) (level : nat) : bytes :=
  match lay with None => [] | Some n => repeat sp (n * level) end.
Definition eol (lay : option nat) : bytes := match lay with None => [] | Some _ => ["010"%char] end.

(** a space is added on each side where there is none *)
Definition padded (c : bytes) : bytes :=
  (if Ascii.eqb (hd NUL c) sp then [] else [sp]) ++ c ++ (if Ascii.eqb (last c NUL) sp then [] else [sp]).

Definition attr_xml (p : bytes * option bytes) : bytes :=
  let v := match snd p with Some v => v | None => [] end in
  let q := if has "'" v then "034"%char else "'"%char in
  sp :: fst p ++ "="%char :: q :: v ++ [q].
Definition attrs_xml (l : list (bytes * option bytes)) : bytes := concat (map attr_xml l).

(** nothing to be seen between the tags; something that gets its own line *)
Definition bare (l : list xitem) : bool := forallb (fun i => match i with XRef _ => true | _ => false end) l.
Definition inner (l : list xitem) : bool :=
  existsb (fun i => match i with XElem _ | XPi _ _ | XComment _ => true | _ => false end) l.

Fixpoint elem_xml (lay : option nat) (level : nat) (x : xnode) : bytes :=
  let '(XNode name ats items) := x in
  indent lay level ++ str "<" ++ name ++ attrs_xml ats ++
  (if bare items then str " />"
   else str ">" ++ (if inner items then eol lay else []) ++
        concat (map (item_xml lay level) items) ++
        (if inner items then indent lay level else []) ++ str "</" ++ name ++ str ">") ++
  eol lay
with item_xml (lay : option nat) (level : nat) (i : xitem) : bytes :=
  match i with
  | XElem x => elem_xml lay (S level) x
  | XText t => t
  | XCdata t => str "<![CDATA[" ++ t ++ str "]]>"
  | XPi name content => str "<?" ++ name ++ str " " ++ match content with Some c => c | None => [] end ++ str "?>"
  | XComment t => indent lay (S level) ++ str "<!--" ++ padded t ++ str "-->" ++ eol lay
  | XRef t => str "&" ++ t ++ str ";"
  end.

Definition decl_xml (lay : option nat) (encoding : option bytes) (standalone : bool) : bytes :=
  str "<?xml version='1.0' " ++
  match encoding with Some e => str "encoding='" ++ e ++ str "' " | None => [] end ++
  (if standalone then str "standalone='yes' " else []) ++ str "?>" ++ eol lay.
Definition doc_xml (lay : option nat) (encoding : option bytes) (standalone : bool) (x : xnode) : bytes :=
  decl_xml lay encoding standalone ++ elem_xml lay 0 x.

(** every string that is measured with strlen is there, and has no NUL inside;
    comments are not empty *)
Inductive measurable : xnode -> Prop :=
| Measurable name ats l : nul_free name ->
    Forall (fun p => nul_free (fst p) /\ exists v, snd p = Some v /\ nul_free v) ats ->
    measurable_items l -> measurable (XNode name ats l)
with measurable_items : list xitem -> Prop :=
| measurable_nil : measurable_items []
| measurable_elem x l : measurable x -> measurable_items l -> measurable_items (XElem x :: l)
| measurable_text t l : measurable_items l -> measurable_items (XText t :: l)
| measurable_cdata t l : measurable_items l -> measurable_items (XCdata t :: l)
| measurable_pi n c l : nul_free n -> nul_free c -> measurable_items l -> measurable_items (XPi n (Some c) :: l)
| measurable_comment t l : t <> [] -> measurable_items l -> measurable_items (XComment t :: l)
| measurable_ref t l : measurable_items l -> measurable_items (XRef t :: l).

(** ** texts of well-formed documents (a part of XML 1.0) *)
Definition blank (s : bytes) : Prop := forallb white s = true.
(** names: not empty, no NUL, no white space, no markup *)
Definition name_char (c : ascii) : bool :=
  negb (white c) && negb (Ascii.eqb c NUL) && negb (has c (str "<>/=!?&'" ++ ["034"%char])).
Definition is_name (s : bytes) : Prop := s <> [] /\ forallb name_char s = true.

Definition quote (q : ascii) : Prop := q = "'"%char \/ q = "034"%char.
(** white space, name, =, value in quotes, zero or more times *)
Inductive attrs_text : bytes -> list (bytes * option bytes) -> Prop :=
| attrs_none : attrs_text [] []
| attrs_more w k q v t l : blank w -> w <> [] -> is_name k -> k <> str "xml:space" -> quote q ->
    nul_free v -> has q v = false -> attrs_text t l -> ~ In k (map fst l) ->
    attrs_text (w ++ k ++ str "=" ++ [q] ++ v ++ [q] ++ t) ((k, Some v) :: l).

Definition is_comment (t : bytes) : Prop := t <> [] /\ ~ occurs (str "-->") t.
Definition is_target (n : bytes) : Prop :=
  is_name n /\ ~ (exists x m l, n = [x; m; l] /\ same_letter x "x" /\ same_letter m "m" /\ same_letter l "l").
Definition is_pi_content (c : bytes) : Prop := nul_free c /\ ~ occurs (str "?>") c /\ last c NUL <> sp.
Inductive pi_text : bytes -> bytes -> option bytes -> Prop :=
| pi_bare n : is_target n -> pi_text (str "<?" ++ n ++ str "?>") n None
| pi_full n w c : is_target n -> white w = true -> is_pi_content c -> pi_text (str "<?" ++ n ++ [w] ++ c ++ str "?>") n (Some c).

(** what came before in the content of an element: nothing, or an element or a CDATA
    section; text; a comment or a processing instruction *)
Inductive phase := Fresh | AfterText | AfterMisc.
(** white space that the parser drops: before a tag, unless text comes first *)
Definition gap (p : phase) (w : bytes) : Prop := blank w /\ (p = AfterText -> w = []).

Inductive elem_text : bytes -> xnode -> Prop :=
| elem_empty name t ats w : is_name name -> attrs_text t ats -> blank w ->
    elem_text (str "<" ++ name ++ t ++ w ++ str "/>") (XNode name ats [])
| elem_full name t ats w c items w' : is_name name -> attrs_text t ats -> blank w ->
    content_text Fresh c items -> blank w' -> (length w' <= 1)%nat ->
    elem_text (str "<" ++ name ++ t ++ w ++ str ">" ++ c ++ str "</" ++ name ++ w' ++ str ">") (XNode name ats items)
with content_text : phase -> bytes -> list xitem -> Prop :=
| content_end p w : gap p w -> content_text p w []
| content_elem p w e x t l : gap p w -> elem_text e x -> content_text Fresh t l ->
    content_text p (w ++ e ++ t) (XElem x :: l)
| content_text_fresh s t l : nul_free s -> ~ blank s -> has "<" s = false -> content_text AfterText t l ->
    content_text Fresh (s ++ t) (XText s :: l)
| content_text_misc w s t l : blank w -> nul_free s -> s <> [] -> white (hd NUL s) = false -> has "<" s = false ->
    content_text AfterText t l -> content_text AfterMisc (w ++ s ++ t) (XText s :: l)
| content_cdata p w s t l : gap p w -> nul_free s -> ~ occurs (str "]]>") s -> content_text Fresh t l ->
    content_text p (w ++ str "<![CDATA[" ++ s ++ str "]]>" ++ t) (XCdata s :: l)
| content_comment p w s t l : gap p w -> is_comment s -> content_text AfterMisc t l ->
    content_text p (w ++ str "<!--" ++ s ++ str "-->" ++ t) (XComment s :: l)
| content_pi p w s n c t l : gap p w -> pi_text s n c -> content_text AfterMisc t l ->
    content_text p (w ++ s ++ t) (XPi n c :: l).

(** before the root: white space, comments and (where [pis]) processing instructions,
    which are kept *)
Inductive misc_text (pis : bool) : bytes -> list pi -> Prop :=
| misc_end w : blank w -> misc_text pis w []
| misc_comment w s t l : blank w -> is_comment s -> misc_text pis t l ->
    misc_text pis (w ++ str "<!--" ++ s ++ str "-->" ++ t) l
| misc_pi w s n c t l : pis = true -> blank w -> pi_text s n c -> misc_text pis t l ->
    misc_text pis (w ++ s ++ t) (Pi n c :: l).

(** the declaration, white space where it is accepted *)
Inductive field_text (name : bytes) : bytes -> option bytes -> Prop :=
| field_none : field_text name [] None
| field_some q v : quote q -> nul_free v -> has "'" v = false -> has "034" v = false ->
    field_text name (name ++ str "=" ++ [q] ++ v ++ [q]) (Some v).
Inductive decl_text : bytes -> option bytes -> bool -> Prop :=
| Decl w1 w2 q w3 te e w4 ts s w5 : blank w1 -> blank w2 -> quote q -> blank w3 -> field_text (str "encoding") te e ->
    blank w4 -> field_text (str "standalone") ts s -> (forall v, s = Some v -> v = str "yes" \/ v = str "no") -> blank w5 ->
    decl_text (str "<?xml" ++ w1 ++ str "version=" ++ w2 ++ [q] ++ str "1.0" ++ [q] ++ w3 ++ te ++ w4 ++ ts ++ w5 ++ str "?>")
      e (match s with Some v => bytes_eqb v (str "yes") | None => false end).

Inductive doctype_text : bytes -> Prop :=
| doctype_none : doctype_text []
| doctype_some t : has ">" t = false -> doctype_text (str "<!DOCTYPE" ++ t ++ str ">").

Definition bom : bytes := ["239"; "187"; "191"]%char.
(** whole documents: anything may follow the root *)
Inductive doc_text : bytes -> option bytes -> bool -> list pi -> xnode -> Prop :=
| doc_with_decl b td e sa m1 tt m2 l te x rest : b = [] \/ b = bom -> decl_text td e sa -> misc_text false m1 [] ->
    doctype_text tt -> misc_text true m2 l -> elem_text te x ->
    doc_text (b ++ td ++ m1 ++ tt ++ m2 ++ te ++ rest) e sa l x
| doc_plain b tt m2 l te x rest : b = [] \/ b = bom ->
    doctype_text tt -> misc_text true m2 l -> elem_text te x ->
    (tt = [] -> forall z, m2 <> str "<?" ++ z) ->
    doc_text (b ++ tt ++ m2 ++ te ++ rest) None false l x.

(** ** trees that can be written *)
(** what a document tree must satisfy to come back from its text *)
Definition is_attr (p : bytes * option bytes) : Prop :=
  is_name (fst p) /\ fst p <> str "xml:space" /\
  exists v, snd p = Some v /\ nul_free v /\ (has "'" v = false \/ has "034" v = false).
Inductive proper : xnode -> Prop :=
| Proper name ats l : is_name name -> Forall is_attr ats -> NoDup (map fst ats) -> proper_items Fresh l -> proper (XNode name ats l)
with proper_items : phase -> list xitem -> Prop :=
| proper_nil p : proper_items p []
| proper_elem p x l : proper x -> proper_items Fresh l -> proper_items p (XElem x :: l)
| proper_text p s l : p <> AfterText -> nul_free s -> ~ blank s -> has "<" s = false ->
    (p = AfterMisc -> white (hd NUL s) = false) -> proper_items AfterText l -> proper_items p (XText s :: l)
| proper_cdata p s l : nul_free s -> ~ occurs (str "]]>") s -> proper_items Fresh l -> proper_items p (XCdata s :: l)
| proper_pi p n c l : is_target n -> is_pi_content c -> proper_items AfterMisc l -> proper_items p (XPi n (Some c) :: l)
| proper_comment p s l : is_comment s -> proper_items AfterMisc l -> proper_items p (XComment s :: l).

(** the tree with its comments as they are written *)
Fixpoint pad_tree (x : xnode) : xnode :=
  let '(XNode name ats l) := x in XNode name ats (map pad_item l)
with pad_item (i : xitem) : xitem :=
  match i with
  | XElem x => XElem (pad_tree x)
  | XComment t => XComment (padded t)
  | i => i
  end.

(** no element has both text and something that gets its own line *)
Definition no_text (l : list xitem) : bool := forallb (fun i => match i with XText _ => false | _ => true end) l.
Inductive unmixed : xnode -> Prop :=
| Unmixed name ats l : no_text l = true \/ inner l = false -> unmixed_items l -> unmixed (XNode name ats l)
with unmixed_items : list xitem -> Prop :=
| unmixed_nil : unmixed_items []
| unmixed_elem x l : unmixed x -> unmixed_items l -> unmixed_items (XElem x :: l)
| unmixed_other i l : (forall x, i <> XElem x) -> unmixed_items l -> unmixed_items (i :: l).

(** every comment already begins and ends with a space *)
Inductive spaced : xnode -> Prop :=
| Spaced name ats l : spaced_items l -> spaced (XNode name ats l)
with spaced_items : list xitem -> Prop :=
| spaced_nil : spaced_items []
| spaced_elem x l : spaced x -> spaced_items l -> spaced_items (XElem x :: l)
| spaced_comment t l : hd NUL t = sp -> last t NUL = sp -> spaced_items l -> spaced_items (XComment t :: l)
| spaced_other i l : (forall x, i <> XElem x) -> (forall t, i <> XComment t) -> spaced_items l -> spaced_items (i :: l).

(** every processing instruction has a content *)
Inductive filled : xnode -> Prop :=
| Filled name ats l : filled_items l -> filled (XNode name ats l)
with filled_items : list xitem -> Prop :=
| filled_nil : filled_items []
| filled_elem x l : filled x -> filled_items l -> filled_items (XElem x :: l)
| filled_pi n c l : filled_items l -> filled_items (XPi n (Some c) :: l)
| filled_other i l : (forall x, i <> XElem x) -> (forall n c, i <> XPi n c) -> filled_items l -> filled_items (i :: l).

(** no text consists of white space only *)
Inductive no_blanks : xnode -> Prop :=
| No_blanks name ats l : no_blanks_items l -> no_blanks (XNode name ats l)
with no_blanks_items : list xitem -> Prop :=
| no_blanks_nil : no_blanks_items []
| no_blanks_elem x l : no_blanks x -> no_blanks_items l -> no_blanks_items (XElem x :: l)
| no_blanks_text t l : ~ blank t -> no_blanks_items l -> no_blanks_items (XText t :: l)
| no_blanks_other i l : (forall x, i <> XElem x) -> (forall t, i <> XText t) -> no_blanks_items l -> no_blanks_items (i :: l).

(** a comment or a processing instruction *)
Definition is_misc (i : xitem) : Prop :=
  match i with
  | XComment s => is_comment s
  | XPi n (Some c) => is_target n /\ is_pi_content c
  | _ => False
  end.
(** [inserted i x y]: [y] is [x] with [i] put between two items or inside a text,
    somewhere below; the text after [i] does not begin with white space *)
Inductive inserted (i : xitem) : xnode -> xnode -> Prop :=
| inserted_here name ats l1 l2 : match l2 with XText s :: _ => white (hd NUL s) = false | _ => True end ->
    inserted i (XNode name ats (l1 ++ l2)) (XNode name ats (l1 ++ i :: l2))
| inserted_text name ats l1 s t l2 : ~ blank s -> t <> [] -> white (hd NUL t) = false ->
    inserted i (XNode name ats (l1 ++ XText (s ++ t) :: l2)) (XNode name ats (l1 ++ XText s :: i :: XText t :: l2))
| inserted_below name ats l1 x y l2 : inserted i x y ->
    inserted i (XNode name ats (l1 ++ XElem x :: l2)) (XNode name ats (l1 ++ XElem y :: l2)).
