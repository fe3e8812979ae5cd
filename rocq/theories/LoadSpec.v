(** Document type definitions as text (a part of XML 1.0, sections 2.8 and 3.2 to 4.2),
    and what a loaded one should hold.  Independent of the loader. *)
From Verif Require Import Prelude StrSpec XmlSpec DtdModel DtdSpec DtdDocModel.
Open Scope nat_scope.
Open Scope list_scope.

(** ** declarations as a user reads them *)
Inductive content := CEmpty | CAny | CText | CMixed (names : list bytes) | CKids (p : part).
Inductive decl := DElement (name : bytes) (c : content) | DAttlist (name : bytes) (l : list at_decl) | DEntity (e : entity).

(** ** their text *)
(** names here have none of the delimiters of declarations *)
Definition tok_char (c : ascii) : bool := name_char c && negb (XmlSpec.has c (str "(),|+*#%;")).
Definition is_tok (x : bytes) : Prop := x <> [] /\ forallb tok_char x = true.
Definition gap1 (w : bytes) : Prop := blank w /\ w <> [].
Inductive rep_text : bytes -> times -> Prop :=
| rep_one : rep_text [] TOne
| rep_opt : rep_text (str "?") TOpt
| rep_many : rep_text (str "*") TMany
| rep_plus : rep_text (str "+") TPlus.
(** [47]-[50]: a name or a group in parentheses; a choice has two items or more *)
Definition separated (ty : nested) (c : ascii) (ps : list part) : Prop :=
  (ty = Sequence /\ c = ","%char) \/ (ty = Choice /\ c = "|"%char /\ 2 <= length ps).
Inductive cp_text : bytes -> part -> Prop :=
| cp_name x r t : is_tok x -> rep_text r t -> cp_text (x ++ r) (Leaf x t)
| cp_group ty c b ps r t : separated ty c ps -> items_text c b ps -> rep_text r t ->
    cp_text (str "(" ++ b ++ str ")" ++ r) (Group ty t ps)
with items_text : ascii -> bytes -> list part -> Prop :=
| items_last c w b p w' : blank w -> cp_text b p -> blank w' -> items_text c (w ++ b ++ w') [p]
| items_more c w b p w' u ps : blank w -> cp_text b p -> blank w' -> items_text c u ps ->
    items_text c (w ++ b ++ w' ++ [c] ++ u) (p :: ps).
(** [46], [51] *)
Inductive content_text : bytes -> content -> Prop :=
| content_empty : content_text (str "EMPTY") CEmpty
| content_any : content_text (str "ANY") CAny
| content_pcdata w w' r : blank w -> blank w' -> r = [] \/ r = str "*" ->
    content_text (str "(" ++ w ++ str "#PCDATA" ++ w' ++ str ")" ++ r) CText
| content_mixed w w' u xs : blank w -> blank w' -> items_text "|" u (map (fun x => Leaf x TOne) xs) ->
    content_text (str "(" ++ w ++ str "#PCDATA" ++ w' ++ str "|" ++ u ++ str ")*") (CMixed xs)
| content_kids b ty t ps : cp_text b (Group ty t ps) -> content_text b (CKids (Group ty t ps)).
(** [54]-[59] *)
Inductive values_text : bytes -> list bytes -> Prop :=
| values_last w v w' : blank w -> is_tok v -> blank w' -> values_text (w ++ v ++ w') [v]
| values_more w v w' u l : blank w -> is_tok v -> blank w' -> values_text u l -> values_text (w ++ v ++ w' ++ str "|" ++ u) (v :: l).
Inductive type_text : bytes -> at_type -> Prop :=
| type_cdata : type_text (str "CDATA") ACdata
| type_id : type_text (str "ID") AId
| type_idref : type_text (str "IDREF") AIdref
| type_idrefs : type_text (str "IDREFS") (AOther KIdrefs)
| type_entity : type_text (str "ENTITY") (AOther KEntity)
| type_entities : type_text (str "ENTITIES") (AOther KEntities)
| type_nmtoken : type_text (str "NMTOKEN") (AOther KNmtoken)
| type_nmtokens : type_text (str "NMTOKENS") (AOther KNmtokens)
| type_enum b l : values_text b l -> type_text (str "(" ++ b ++ str ")") (AEnum l).
Inductive quoted : bytes -> bytes -> Prop :=
| Quoted q v : quote q -> nul_free v -> XmlSpec.has q v = false -> quoted ([q] ++ v ++ [q]) v.
(** [60] *)
Inductive default_text : bytes -> at_default -> option bytes -> Prop :=
| default_required : default_text (str "#REQUIRED") ARequired None
| default_implied : default_text (str "#IMPLIED") AImplied None
| default_fixed w t v : gap1 w -> quoted t v -> default_text (str "#FIXED" ++ w ++ t) AFixed (Some v)
| default_value t v : quoted t v -> default_text t AImplied (Some v).
(** [52], [53] *)
Inductive att_text : bytes -> at_decl -> Prop :=
| AttText w x w1 t ty w2 t' df v : gap1 w -> is_name x -> gap1 w1 -> type_text t ty -> gap1 w2 -> default_text t' df v ->
    att_text (w ++ x ++ w1 ++ t ++ w2 ++ t') (AtDecl x ty df v).
Inductive atts_text : bytes -> list at_decl -> Prop :=
| atts_none : atts_text [] []
| atts_more t a u l : att_text t a -> atts_text u l -> atts_text (t ++ u) (a :: l).
(** [45], [52], [70]-[74]: entities with a value *)
Inductive decl_text : bytes -> decl -> Prop :=
| decl_element w x w1 b c w2 : gap1 w -> is_tok x -> gap1 w1 -> content_text b c -> blank w2 ->
    decl_text (str "<!ELEMENT" ++ w ++ x ++ w1 ++ b ++ w2 ++ str ">") (DElement x c)
| decl_attlist w x t l w2 : gap1 w -> is_name x -> atts_text t l -> blank w2 -> (l = [] -> w2 <> []) ->
    decl_text (str "<!ATTLIST" ++ w ++ x ++ t ++ w2 ++ str ">") (DAttlist x l)
| decl_general w x w1 t v w2 : gap1 w -> is_tok x -> gap1 w1 -> quoted t v -> blank w2 ->
    decl_text (str "<!ENTITY" ++ w ++ x ++ w1 ++ t ++ w2 ++ str ">") (DEntity (Entity x EGeneral (Some v)))
| decl_parameter w w0 x w1 t v w2 : gap1 w -> gap1 w0 -> is_tok x -> gap1 w1 -> quoted t v -> blank w2 ->
    decl_text (str "<!ENTITY" ++ w ++ str "%" ++ w0 ++ x ++ w1 ++ t ++ w2 ++ str ">") (DEntity (Entity x EParameter (Some v))).
(** declarations, with white space and comments in between *)
Inductive dtd_text : bytes -> list decl -> Prop :=
| dtd_end m : misc_text false m [] -> dtd_text m []
| dtd_more m t d u l : misc_text false m [] -> decl_text t d -> dtd_text u l -> dtd_text (m ++ t ++ u) (d :: l).

(** ** what is declared *)
Definition elements_of (ds : list decl) : list (bytes * content) := flat_map (fun d => match d with DElement x c => [(x, c)] | _ => [] end) ds.
Definition atts_of (ds : list decl) (x : bytes) : list at_decl :=
  flat_map (fun d => match d with DAttlist y l => if bytes_eqb y x then l else [] | _ => [] end) ds.
Definition listed (ds : list decl) (x : bytes) : Prop := exists l, In (DAttlist x l) ds.
Definition entities_of (ds : list decl) : list entity := flat_map (fun d => match d with DEntity e => [e] | _ => [] end) ds.
Definition some_att (ds : list decl) (ty : at_type -> bool) : Prop := exists x l a, In (DAttlist x l) ds /\ In a l /\ ty (ad_type a) = true.
Definition is_id_type (t : at_type) : bool := match t with AId => true | _ => false end.
Definition is_ref_type (t : at_type) : bool := match t with AIdref | AOther KIdrefs => true | _ => false end.

(** ** what must hold of them *)
(** an element has one ID attribute at most, without a fixed value; the default of an
    enumerated attribute is one of its values *)
Definition atts_good (l : list at_decl) : Prop :=
  (forall a b, In a l -> In b l -> ad_type a = AId -> ad_type b = AId -> ad_name a = ad_name b) /\
  (forall a, In a l -> ad_type a = AId -> ad_default a <> AFixed) /\
  (forall a vs v, In a l -> ad_type a = AEnum vs -> ad_value a = Some v -> In v vs).
Definition child_names (c : content) : list bytes :=
  match c with CMixed xs => xs | CKids p => (fix go (p : part) := match p with Leaf x _ => [x] | Group _ _ ps => flat_map go ps end) p | _ => [] end.
Record declared_well (ds : list decl) : Prop := {
  dw_elements : NoDup (map fst (elements_of ds));
  dw_atts : forall x, atts_good (atts_of ds x);
  dw_refs : some_att ds is_ref_type -> some_att ds is_id_type;
  dw_acyclic : exists rank : bytes -> nat, forall x c y, In (x, c) (elements_of ds) -> In y (child_names c) -> rank y < rank x
}.
(** a group is read as what it is if a name comes before one of its separators (the
    outermost one also if it is a sequence) *)
Definition is_leaf (p : part) : bool := match p with Leaf _ _ => true | _ => false end.
Definition shown (ps : list part) : bool := existsb is_leaf (removelast ps).
Fixpoint grouped (p : part) : bool :=
  match p with Leaf _ _ => true | Group _ _ ps => (shown ps || (length ps =? 1)) && forallb grouped ps end.
Definition grouped_top (p : part) : bool :=
  match p with Leaf _ _ => true | Group ty _ ps => (is_sequence ty || shown ps) && forallb grouped ps end.
Definition groups_shown (ds : list decl) : Prop := forall x p, In (x, CKids p) (elements_of ds) -> grouped_top p = true.
(** and kept as it is if that also holds of every group in it *)
Fixpoint all_shown (p : part) : bool := match p with Leaf _ _ => true | Group _ _ ps => shown ps && forallb all_shown ps end.
Definition exact (p : part) : bool :=
  match p with Leaf _ _ => true | Group ty _ ps => (is_sequence ty || shown ps) && forallb all_shown ps end.

(** ** what is loaded *)
(** of a mixed content the loader keeps a choice of its names and #PCDATA *)
Definition mixed (xs : list bytes) : part := Group Choice TMany (map (fun x => Leaf x TOne) (str "#PCDATA" :: xs)).
Definition element_loaded (d : bytes * content) (e : el_decl) : Prop :=
  el_name e = fst d /\
  match snd d with
  | CEmpty => el_ty e = TEmpty /\ el_list e = None
  | CAny => el_ty e = TAny /\ el_list e = None
  | CText => el_ty e = TPcdata
  | CMixed xs => el_ty e = TChildren /\ el_list e = Some (mixed xs) /\ el_min e = compulsory_num (mixed xs)
  | CKids p => el_ty e = TChildren /\ exists q, el_list e = Some q /\ el_min e = compulsory_num q /\ (forall w, lang q w <-> lang p w) /\
      (exact p = true -> q = p)
  end.
(** [d] and [ents] hold the declarations [ds] *)
Record loaded (ds : list decl) (d : dtd) (ents : list entity) : Prop := {
  ld_elements : Forall2 element_loaded (elements_of ds) (d_elements d);
  ld_lists : NoDup (map fst (d_attrs d));
  ld_attrs : forall x l, In (x, l) (d_attrs d) <-> listed ds x /\ l = atts_of ds x;
  ld_entities : ents = entities_of ds;
  ld_id : d_id d = true <-> some_att ds is_id_type;
  ld_idref : d_idref d = true <-> some_att ds is_ref_type;
  ld_top : match d_top d with
           | None => elements_of ds = []
           | Some r => In r (d_elements d) /\ forall x c, In (x, c) (elements_of ds) -> ~ In (el_name r) (child_names c)
           end
}.

(** ** valid as written *)
(** the content and the attributes of an element follow what is declared *)
Definition follows (c : content) (e : elem) : Prop :=
  match c with
  | CEmpty => e_empty e = true /\ e_subs e = []
  | CAny => True
  | CText => e_subs e = []
  | CMixed xs => forall k, In k (e_subs e) -> In (e_name k) xs
  | CKids p => lang p (map e_name (e_subs e))
  end.
Definition atts_follow (l : list at_decl) (e : elem) : Prop :=
  (forall n v, In (n, v) (e_atts e) -> exists a, In a l /\ ad_name a = n /\ forall vs, ad_type a = AEnum vs -> In v vs) /\
  (forall a, In a l -> ad_default a = ARequired -> exists v, In (ad_name a, v) (e_atts e)) /\
  (forall a, In a l -> ad_default a = AFixed -> exists v, ad_value a = Some v /\ In (ad_name a, v) (e_atts e)).
Fixpoint every_elem (e : elem) : list elem := e :: flat_map every_elem (e_subs e).
(** [75]: an entity kept elsewhere *)
Inductive external_text : bytes -> Prop :=
| External w x w1 w2 t v w3 : gap1 w -> is_tok x -> gap1 w1 -> gap1 w2 -> quoted t v -> blank w3 ->
    external_text (str "<!ENTITY" ++ w ++ x ++ w1 ++ str "SYSTEM" ++ w2 ++ t ++ w3 ++ str ">").

(** ** declarations that are not well formed *)
Definition separator (c : ascii) : Prop := c = ","%char \/ c = "|"%char.
(** items, each one followed by the separator [c] *)
Inductive run_text : ascii -> bytes -> list part -> Prop :=
| run_none c : run_text c [] []
| run_more c w b p w' u ps : blank w -> cp_text b p -> blank w' -> run_text c u ps -> run_text c (w ++ b ++ w' ++ [c] ++ u) (p :: ps).
(** the start of a specification up to the start of a group *)
Inductive open_text : bytes -> Prop :=
| open_first : open_text (str "(")
| open_inner u c v ps w : open_text u -> separator c -> run_text c v ps -> blank w -> open_text (u ++ v ++ w ++ str "(").
(** a specification in which a group has two different separators, the second one after
    the item [p], whatever comes next *)
Inductive clash_text : list part -> part -> bytes -> Prop :=
| Clash o c v ps w b p w' c' z : open_text o -> separator c -> separator c' -> c <> c' -> run_text c v ps -> ps <> [] -> blank w -> cp_text b p -> blank w' ->
    clash_text ps p (o ++ v ++ w ++ b ++ w' ++ [c'] ++ z).

(** ** what holds of everything that is loaded *)
Record well_kept (d : dtd) : Prop := {
  wk_elements : NoDup (map el_name (d_elements d));
  wk_lists : NoDup (map fst (d_attrs d));
  wk_atts : forall x l, In (x, l) (d_attrs d) -> atts_good l;
  wk_refs : (exists x l a, In (x, l) (d_attrs d) /\ In a l /\ is_ref_type (ad_type a) = true) ->
    exists x l a, In (x, l) (d_attrs d) /\ In a l /\ is_id_type (ad_type a) = true;
  wk_top : match d_top d with None => d_elements d = [] | Some r => In r (d_elements d) end
}.
