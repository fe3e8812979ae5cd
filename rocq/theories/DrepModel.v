(** Loading of a DTD (LoadModel) with the memory it takes and the errors it reports:
    src/axl_dtd.c with src/axl_error.c and src/axl_stream.c, over the book of RepModel.

    Simplifications: those of LoadModel, but for the memory left behind by errors, which
    is represented here; a list with its cells is one block, and so is a stack; the message
    of an error is its format, the names in it are left out; axl_stream_push replaces the
    buffer of the stream (when it has to), its second buffer is counted with the first. *)
From Verif Require Import Prelude StrModel StreamModel TreeModel ParseModel DtdModel DtdDocModel LoadModel.
From Verif Require Import RepModel.
Open Scope Z_scope.

(** ** The memory of a DTD *)
(** struct _axlDtdElementListNode and struct _axlDtdElementList, axl_dtd.c:44-83 *)
Inductive mnode := MName (self data : nat) | MNest (self : nat) (l : mlist)
with mlist := MList (self : nat) (items : option (nat * list mnode)).
(** struct _axlDtdElement, axl_dtd.c:85-110 *)
Record mel := MEl { me_self : nat; me_name : nat; me_list : option mlist }.
(** struct _axlDtdAttributeDecl and struct _axlDtdAttribute, axl_dtd.c:111-160 *)
Record mdecl := MDecl { md_self : nat; md_name : nat; md_default : option nat; md_enum : option (nat * list nat) }.
Record mattr := MAttr { ma_self : nat; ma_name : nat; ma_list : nat; ma_decls : list mdecl }.
(** struct _axlDtdEntity, axl_dtd.c:180-203; its external data is never set *)
Record ment := MEnt { mn_self : nat; mn_name : option nat; mn_content : option nat }.
(** struct _axlDtd, axl_dtd.c:204-240: the lists are made when they are needed *)
Record mdtd := MDtd { m_self : nat; m_elements : option (nat * list mel); m_attrs : option (nat * list mattr); m_ents : option (nat * list ment) }.

Definition opt_block (o : option nat) : list nat := match o with Some b => [b] | None => [] end.
(** axl_list_free with a destroy function *)
Definition freed_list {A} (f : A -> list nat) (o : option (nat * list A)) : list nat :=
  match o with Some (b, l) => concat (map f l) ++ [b] | None => [] end.
(** axl_dtd_item_list_free, axl_dtd.c:4034-4047, and __destroy_axl_dtd_element_list, 297-312:
    the blocks released, in order *)
Fixpoint freed_items (l : mlist) : list nat :=
  match l with
  | MList self items =>
    match items with
    | None => []
    | Some (b, ns) =>
      (fix go (ns : list mnode) : list nat := match ns with [] => [] | n :: r => freed_node n ++ go r end) ns ++ [b]
    end ++ [self]
  end
with freed_node (n : mnode) : list nat :=
  match n with
  | MName self data => [data; self]
  | MNest self l => freed_items l ++ [self]
  end.
(** axl_dtd_element_free, axl_dtd.c:4008-4025 *)
Definition freed_element (e : mel) : list nat :=
  [me_name e] ++ match me_list e with Some l => freed_items l | None => [] end ++ [me_self e].
(** axl_dtd_attribute_decl_free, axl_dtd.c:1270-1289 *)
Definition freed_decl (d : mdecl) : list nat :=
  [md_name d] ++ opt_block (md_default d) ++ freed_list (fun b => [b]) (md_enum d) ++ [md_self d].
(** axl_dtd_attribute_free, axl_dtd.c:1296-1304 *)
Definition freed_attr (a : mattr) : list nat :=
  [ma_name a] ++ freed_list freed_decl (Some (ma_list a, ma_decls a)) ++ [ma_self a].
(** axl_dtd_entity_free, axl_dtd.c:1701-1736 *)
Definition freed_ent (e : ment) : list nat := opt_block (mn_name e) ++ opt_block (mn_content e) ++ [mn_self e].
(** axl_dtd_free, axl_dtd.c:3973-3996 *)
Definition freed_dtd (d : mdtd) : list nat :=
  freed_list freed_element (m_elements d) ++ freed_list freed_ent (m_ents d) ++ freed_list freed_attr (m_attrs d) ++ [m_self d].
Definition dtd_free (m : book) (d : mdtd) : res book :=
  m <- releases m (freed_dtd d) ;; Ok (with_document m (linked m) []).

(** what axl_stream_free has to release with the stream, which is linked with the DTD *)
Definition linked_with (m : book) (d : mdtd) : book := with_document m (linked m) (freed_dtd d).
(** axl_list_new for a list that is not there yet *)
Definition ready {A} (m : book) (o : option (nat * list A)) : book * (nat * list A) :=
  match o with Some x => (m, x) | None => let '(m, b) := take m in (m, (b, [])) end.
(** axl_stream_nullify on the last chunk, which the caller keeps *)
Definition keep_chunk (m : book) : res (book * nat) :=
  _ <- touch m ;;
  match last m with Some (Heap b) => Ok (with_last m None, b) | _ => UB end.

(** ** Giving up *)
(** axl_error_new, axl_free or axl_stack_free, axl_stream_free *)
Definition fail_with {A} (m : book) (st : stream) (code : Z) (text : bytes) (b : nat) : res (book * option A) :=
  m <- error_new m st code text ;; m <- release m b ;; m <- stream_free m ;; Ok (m, None).
(** axl_strdup_printf, axl_error_new, axl_stream_free, axl_free *)
Definition fail_msg {A} (m : book) (st : stream) (code : Z) (text : bytes) : res (book * option A) :=
  let '(m, b) := take m in
  m <- error_new m st code text ;; m <- stream_free m ;; m <- release m b ;; Ok (m, None).

(** the messages of errors inside the content of an element, axl_dtd.c:806-824, 883-888,
    956-958, 968-983, and of the one for an element declared twice, 544-545 *)
Definition t_open := s2b "Expected to find a element content specification opener ""("", but it wasn't found".
Definition t_particle := s2b "Expected to find a element content specification particule, but it wasn't found".
Definition t_nesting := s2b "Found a not proper nesting item list for a DTD element, before using ( a separator must be used (CHOICE: |, SEQUENCE: ,)".
Definition t_separator := s2b "Before a repetition pattern (*,+,?) expected to find a content particule separator".
Definition t_choice := s2b "Detected that the DTD definition is mixing content particules separators at the same level ('|' and ','). First detected a sequence spec (,) but then detected a choice element (|)".
Definition t_sequence := s2b "Detected that the DTD definition is mixing content particules separators at the same level ('|' and ','). First detected a choice spec (|) but then detected a sequence element (,)".
Definition t_twice := s2b "Find that an DTD element was defined twice (no more than one time is allowed)".

(** ** Content specifications *)
(** the list being read, and the lists it is in: each with the cell made for the next *)
Record mopen := MOpen { mo_self : nat; mo_items : option (nat * list mnode) }.
Record mframe := MFrame { f_self : nat; f_list : nat; f_nodes : list mnode; f_child : nat }.
Definition mclosed (o : mopen) : mlist := MList (mo_self o) (mo_items o).
(** __axl_dtd_element_content_particule_add, axl_dtd.c:574-592, for the chunk [data] *)
Definition madd (m : book) (o : mopen) (data : nat) : book * mopen :=
  let '(m, (b, l)) := ready m (mo_items o) in
  let '(m, n) := take m in
  (m, MOpen (mo_self o) (Some (b, l ++ [MName n data]))).
(** __axl_dtd_create_and_queue, axl_dtd.c:674-701 *)
Definition mqueue (m : book) (o : mopen) : book * mopen * mframe :=
  let '(m, child) := take m in
  let '(m, n) := take m in
  let '(m, (b, l)) := ready m (mo_items o) in
  (m, MOpen child None, MFrame (mo_self o) b l n).
(** a list is complete: its parent is the current one again *)
Definition mpop (o : mopen) (f : mframe) : mopen :=
  MOpen (f_self f) (Some (f_list f, f_nodes f ++ [MNest (f_child f) (mclosed o)])).

(** the inner loop, axl_dtd.c:1003-1049 *)
Fixpoint close_loop (st : stream) (chunk : Z) (cur : open) (stack : list open) (mcur : mopen) (mstack : list mframe)
  : res (mopen * list mframe * (stream * Z * open * list open)) :=
  st <- consume_spaces st ;;
  '(st, t) <- repetition st ;;
  let cur := Open (o_ty cur) t (o_ps cur) in
  st <- consume_spaces st ;;
  '(st, chunk) <- which st [(s2b ",", 1); (s2b "|", 2)] chunk ;;
  match stack, mstack with
  | [], _ =>
    st <- consume_spaces st ;;
    '(st, _) <- stream_inspect st (s2b ")") ;;
    Ok (mcur, mstack, (st, chunk, cur, []))
  | up :: stack, f :: mstack =>
    let up := add_part up (closed cur) in
    let mcur := mpop mcur f in
    st <- consume_spaces st ;;
    '(st, v) <- stream_inspect st (s2b ")") ;;
    if 0 <? v then close_loop st chunk up stack mcur mstack else Ok (mcur, mstack, (st, chunk, up, stack))
  | _ :: _, [] => UB             (* not reached: there are as many of both *)
  end.
(** the loop of __axl_dtd_read_element_spec, axl_dtd.c:893-1058; [sk] is the stack *)
Fixpoint spec_loop (fuel : nat) (m : book) (st : stream) (ty : el_type) (cur : open) (stack : list open)
  (mcur : mopen) (mstack : list mframe) (sk : nat) : res (book * option (mlist * (stream * (el_type * part)))) :=
  match fuel with
  | O => NoFuel
  | S fuel =>
    st <- consume_spaces st ;;
    '(st, v) <- stream_inspect st (s2b "(") ;;
    if 0 <? v then
      let '(m, mnew, f) := mqueue m mcur in
      spec_loop fuel m st ty open_new (cur :: stack) mnew (f :: mstack) sk
    else
      '(m, st, o) <- take_until m st true particle_stops ;;
      match o with
      | None => fail_with m st (-1) t_particle sk
      | Some (x, chunk) =>
        if chunk =? 8 then fail_with m st (-1) t_nesting sk
        else
          '(m, data) <- keep_chunk m ;;
          let x := cstr x in
          '(st, chunk) <- (if chunk =? 0 then st <- consume_spaces st ;; update_chunk st chunk else Ok (st, chunk)) ;;
          let cur := add_part cur (Leaf x (times_of chunk)) in
          let '(m, mcur) := madd m mcur data in
          o <- (if (chunk =? 4) || (chunk =? 5) || (chunk =? 6) then
                  (st' <- consume_spaces st ;;
                   '(st', o) <- which st' [(s2b ",", Some 1); (s2b "|", Some 2); (s2b ")", Some 3)] None ;;
                   Ok (st', o))
                else Ok (st, Some chunk)) ;;
          match o with
          | (st, None) => fail_with m st (-1) t_separator sk
          | (st, Some chunk) =>
            match retype (o_ty cur) chunk with
            | None => fail_with m st (-1) (if chunk =? 1 then t_choice else t_sequence) sk
            | Some nt =>
              let cur := Open nt (o_t cur) (o_ps cur) in
              let ty := retype_element ty chunk x (length (o_ps cur)) in
              '(mcur, mstack, (st, chunk, cur, stack)) <-
                (if chunk =? 3 then close_loop st chunk cur stack mcur mstack else Ok (mcur, mstack, (st, chunk, cur, stack))) ;;
              if negb (chunk =? 3) || match stack with [] => false | _ => true end then spec_loop fuel m st ty cur stack mcur mstack sk
              else
                m <- release m sk ;;
                Ok (m, Some (mclosed mcur, (st, (ty, Group (match o_ty cur with Undef => Sequence | nt => nt end) (o_t cur) (o_ps cur)))))
            end
          end
      end
  end.
(** __axl_dtd_read_element_spec, axl_dtd.c:846-1082 *)
Definition read_spec (m : book) (st : stream) : res (book * option (mlist * (stream * (el_type * part)))) :=
  let '(m, sk) := take m in
  let '(m, self) := take m in
  st <- consume_spaces st ;;
  '(st, v) <- stream_inspect st (s2b "(") ;;
  if v =? 0 then fail_with m st (-1) t_open sk
  else spec_loop (turns st) m st TChildren open_new [] (MOpen self None) [] sk.

(** ** Declarations *)
Definition with_elements (d : mdtd) e := MDtd (m_self d) e (m_attrs d) (m_ents d).
Definition with_attrs (d : mdtd) a := MDtd (m_self d) (m_elements d) a (m_ents d).
Definition with_ents (d : mdtd) n := MDtd (m_self d) (m_elements d) (m_attrs d) n.

(** __axl_dtd_parse_element, axl_dtd.c:1160-1263, with __axl_dtd_add_element, 531-558: the
    element belongs to the DTD only when it has been read and is new *)
Definition parse_element (m : book) (d : mdtd) (st : stream) (l : load) : res (book * option (mdtd * (stream * load))) :=
  let '(m, (eb, es)) := ready m (m_elements d) in
  let d := with_elements d (Some (eb, es)) in
  let m := linked_with m d in
  st <- consume_spaces st ;;
  '(st, v) <- stream_inspect st (s2b "<!ELEMENT") ;;
  if negb (0 <? v) then fail m st (-1) (s2b "Expected to receive a <!ELEMENT, but it wasn't found")
  else
    st <- consume_spaces st ;;
    '(m, st, o) <- take_until m st false [s2b ">"; s2b "("; s2b " "] ;;
    match o with
    | None => fail m st (-1) (s2b "Expected to receive a DTD element name for <!ELEMENT declaration, but not found")
    | Some (name, matched) =>
      if (matched =? 0) || (matched =? 3) then
        fail m st (-1) (s2b "Found a DTD <!ELEMENT declaration, without content specification. Missing value, examples: EMPTY, ANY, (..)")
      else
        '(m, nb) <- keep_chunk m ;;
        let '(m, self) := take m in
        let name := cstr name in
        st <- consume_spaces st ;;
        '(st, v) <- stream_peek st (s2b "EMPTY") ;;
        '(m, (ml, (st, (ty, p)))) <-?
          (if 0 <? v then Ok (m, Some (None, (stream_accept st, (TEmpty, None))))
           else
             '(st, v) <- stream_peek st (s2b "ANY") ;;
             if 0 <? v then Ok (m, Some (None, (stream_accept st, (TAny, None))))
             else
               '(m, (ml, (st, (ty, p)))) <-? read_spec m st ;;
               Ok (m, Some (Some ml, (st, (ty, Some p))))) ;;
        if existsb (fun e => bytes_eqb (el_name e) name) (l_elements l) then fail m st (-1) t_twice
        else
          let d := with_elements d (Some (eb, es ++ [MEl self nb ml])) in
          let m := linked_with m d in
          st <- consume_spaces st ;;
          '(st, v) <- stream_inspect st (s2b ">") ;;
          if v =? 0 then fail m st (-1) (s2b "Unable to find last, > terminator for the DTD <!ELEMENT declaration")
          else
            let e := ElDecl name ty p (match p with Some p => compulsory_num p | None => 0%nat end) in
            Ok (m, Some (d, (st, Load (l_elements l ++ [e]) (l_attrs l) (l_entities l) (l_id l) (l_idref l))))
    end.

(** axl_stream_push, axl_stream.c:837-898: the buffer may be replaced *)
Definition push_text (m : book) (st : stream) (content : bytes) : res (book * stream) :=
  _ <- touch m ;;
  m <- (if s_size st <? s_size st - s_idx st + Z.of_nat (length content) then
          match own m with
          | self :: buffer :: rest =>
            m <- release m buffer ;;
            let '(m, b) := take m in
            Ok (with_own m (self :: b :: rest))
          | _ => UB
          end
        else Ok m) ;;
  st <- stream_push st content ;;
  Ok (m, st).
(** axl_dtd_check_entity_ref_and_expand, axl_dtd.c:1347-1391 *)
Definition expand (m : book) (st : stream) (ents : list entity) : res (book * option (unit * stream)) :=
  let index := s_idx st in
  '(st, v) <- stream_inspect st (s2b "%") ;;
  if negb (0 <? v) then Ok (m, Some (tt, st))
  else
    '(m, st, o) <- take_until m st true [s2b ";"] ;;
    match o with
    | None => fail m st (-1) (s2b "null value received while expecting to find the entity reference to resolve.")
    | Some (name, _) =>
      match entity_value ents (cstr name) EParameter with
      | None => Ok (m, Some (tt, stream_move st index))
      | Some value =>
        let '(m, b) := take m in
        '(m, st) <- push_text m (stream_accept st) (value ++ s2b " ") ;;
        m <- release m b ;;
        Ok (m, Some (tt, st))
      end
    end.

(** the [n]-th of a list *)
Fixpoint upd {A} (n : nat) (f : A -> A) (l : list A) : list A :=
  match l, n with
  | [], _ => []
  | x :: l, O => f x :: l
  | x :: l, S n => x :: upd n f l
  end.
(** the declarations of the [k]-th element with attributes, axl_dtd.c:1475-1494 *)
Definition on_decls (k : nat) (f : list mdecl -> list mdecl) (d : mdtd) : mdtd :=
  with_attrs d (match m_attrs d with
                | Some (b, l) => Some (b, upd k (fun a => MAttr (ma_self a) (ma_name a) (ma_list a) (f (ma_decls a))) l)
                | None => None
                end).
(** the declaration being read is the last *)
Definition on_last (f : mdecl -> mdecl) (l : list mdecl) : list mdecl := upd (pred (length l)) f l.
Definition set_enum (e : nat * list nat) (d : mdecl) : mdecl := MDecl (md_self d) (md_name d) (md_default d) (Some e).
Definition set_default (b : nat) (d : mdecl) : mdecl := MDecl (md_self d) (md_name d) (Some b) (md_enum d).

(** __axl_dtd_parse_enumvalues, axl_dtd.c:1402-1428: the pieces are released, their trimmed
    copies stay *)
Definition take_values (m : book) (vs : list bytes) : res (book * (nat * list nat)) :=
  let '(m, pieces) := takes m (S (length vs)) in
  let '(m, b) := take m in
  let '(m, l) := takes m (length vs) in
  m <- releases m pieces ;;
  Ok (m, (b, l)).

(** the type of an attribute, axl_dtd.c:1527-1578 *)
Definition att_type (m : book) (d : mdtd) (k : nat) (st : stream) : res (book * option (mdtd * (stream * at_type))) :=
  '(st, o) <- which st att_types None ;;
  match o with
  | None => fail m st (-1) (s2b "Unrecognied attr type declaration found, check your <!ATTLIST declaration")
  | Some (AEnum _) =>
    '(m, st, o) <- take_until m st true [s2b ")"] ;;
    match o with
    | None => fail m st (-1) (s2b "expected to find enum declaration but termination caracter ')' was not found")
    | Some (x, _) =>
      vs <- enum_values (cstr x) ;;
      '(m, e) <- take_values m vs ;;
      let d := on_decls k (on_last (set_enum e)) d in
      Ok (linked_with m d, Some (d, (st, AEnum vs)))
    end
  | Some ty => Ok (m, Some (d, (st, ty)))
  end.
(** the default declaration, axl_dtd.c:1587-1611 *)
Definition att_default (m : book) (st : stream) : res (book * option (unit * (stream * at_default))) :=
  '(st, o) <- which st [(s2b "#REQUIRED", Some ARequired); (s2b "#IMPLIED", Some AImplied)] None ;;
  match o with
  | Some df => Ok (m, Some (tt, (st, df)))
  | None =>
    '(st, f) <- stream_inspect st (s2b "#FIXED") ;;
    st <- (if 0 <? f then consume_spaces st else Ok st) ;;
    '(st, v) <- stream_peek st dquote ;;
    '(st, v) <- (if 0 <? v then Ok (st, v) else stream_peek st (s2b "'")) ;;
    if 0 <? v then Ok (m, Some (tt, (st, if 0 <? f then AFixed else AImplied)))
    else fail_msg m st (-1) (s2b "Unable to find default attribute declaration (#REQUIRED, #IMPLIED, #FIXED)  for attribute %s, node <%s>")
  end.
(** the default value, axl_dtd.c:1643-1655: it is the last chunk *)
Definition att_value (m : book) (st : stream) : res (book * stream * option bytes) :=
  '(st, o) <- which st [(dquote, Some dquote); (s2b "'", Some (s2b "'"))] None ;;
  match o with
  | None => Ok (m, st, None)
  | Some q =>
    '(m, st, o) <- take_until m st true [q] ;;
    Ok (m, st, match o with Some (x, _) => Some (cstr x) | None => None end)
  end.
(** the attributes of one declaration, axl_dtd.c:1497-1688, for the [k]-th element with
    attributes *)
Fixpoint att_loop (fuel : nat) (ents : list entity) (m : book) (d : mdtd) (k : nat) (st : stream) (decls : list at_decl) (id idref : bool)
  : res (book * option (mdtd * (stream * (list at_decl * bool * bool)))) :=
  match fuel with
  | O => NoFuel
  | S fuel =>
    st <- consume_spaces st ;;
    '(st, v) <- stream_inspect st (s2b ">") ;;
    if 0 <? v then Ok (m, Some (d, (st, (decls, id, idref))))
    else
      '(m, st, o) <- take_until m st false [s2b " "] ;;
      match o with
      | None => fail m st (-1) (s2b "Expected to receive an attribute name for <!ATTLIST declaration, but not found")
      | Some (name, _) =>
        '(m, nb) <- keep_chunk m ;;
        let '(m, self) := take m in
        let d := on_decls k (fun l => l ++ [MDecl self nb None None]) d in
        let m := linked_with m d in
        let name := cstr name in
        st <- consume_spaces st ;;
        '(m, (_, st)) <-? expand m st ents ;;
        '(m, (d, (st, ty))) <-? att_type m d k st ;;
        let id := id || match ty with AId => true | _ => false end in
        let idref := idref || is_idrefs ty in
        st <- consume_spaces st ;;
        '(m, (_, (st, df))) <-? att_default m st ;;
        let a := AtDecl name ty df None in
        if match ty with
           | AId => match find is_id (decls ++ [a]) with Some b => negb (bytes_eqb (ad_name b) name) | None => false end
           | _ => false
           end then
          fail_msg m st (-1) (s2b "Found ATTLIST declaration, with several ID declarations <ATTLIST %s %s..")
        else if match ty with AId => match df with AFixed => true | _ => false end | _ => false end then
          fail_msg m st (-1) (s2b "Found ATTLIST declaration, with ID, that don't have configured either #IMPLICIT or #REQUIRED for attribute %s, node <%s>")
        else
          st <- consume_spaces st ;;
          '(m, st, value) <- att_value m st ;;
          if match ty, value with AEnum vs, Some v => negb (existsb (bytes_eqb v) vs) | _, _ => false end then
            fail m st (-1) (s2b "Configured a default value for an attribute list which only accepts a set of enum values that do not containt it.")
          else
            '(m, d) <- match value with
                       | Some _ =>
                         '(m, b) <- keep_chunk m ;;
                         let d := on_decls k (on_last (set_default b)) d in
                         Ok (linked_with m d, d)
                       | None => Ok (m, d)
                       end ;;
            att_loop fuel ents m d k st (decls ++ [AtDecl name ty df value]) id idref
      end
  end.
(** the place of an element with attributes *)
Fixpoint place_of (l : list (bytes * list at_decl)) (name : bytes) : option nat :=
  match l with
  | [] => None
  | (x, _) :: l => if bytes_eqb x name then Some O else match place_of l name with Some n => Some (S n) | None => None end
  end.
(** __axl_dtd_parse_attlist, axl_dtd.c:1450-1692 *)
Definition parse_attlist (fuel : nat) (m : book) (d : mdtd) (st : stream) (l : load) : res (book * option (mdtd * (stream * load))) :=
  let '(m, (ab, az)) := ready m (m_attrs d) in
  let d := with_attrs d (Some (ab, az)) in
  let m := linked_with m d in
  st <- consume_spaces st ;;
  '(m, st, o) <- take_until m st false [s2b " "] ;;
  match o with
  | None => fail m st (-1) (s2b "Expected to receive a DTD attribute name for <!ATTLIST declaration, but not found")
  | Some (name, _) =>
    let name := cstr name in
    '(m, d, k) <- match place_of (l_attrs l) name with
                  | Some k => Ok (m, d, k)
                  | None =>
                    let '(m, self) := take m in
                    '(m, nb) <- keep_chunk m ;;
                    let '(m, lb) := take m in
                    let d := with_attrs d (Some (ab, az ++ [MAttr self nb lb []])) in
                    Ok (linked_with m d, d, length az)
                  end ;;
    '(m, (d, (st, (decls, id, idref)))) <-? att_loop fuel (l_entities l) m d k st (decls_of (l_attrs l) name) (l_id l) (l_idref l) ;;
    Ok (m, Some (d, (st, Load (l_elements l) (put_attr (l_attrs l) name decls) (l_entities l) id idref)))
  end.

(** __axl_dtd_parse_entity, axl_dtd.c:1744-1846: the entity belongs to the DTD from the
    beginning *)
Definition parse_entity (m : book) (d : mdtd) (st : stream) (l : load) : res (book * option (mdtd * (stream * load))) :=
  let '(m, (nb, ns)) := ready m (m_ents d) in
  let d := with_ents d (Some (nb, ns)) in
  let m := linked_with m d in
  st <- consume_spaces st ;;
  '(st, v) <- stream_inspect st (s2b "<!ENTITY") ;;
  if negb (0 <? v) then fail m st (-1) (s2b "Expected to receive a <!ENTITY, but it wasn't found")
  else
    st <- consume_spaces st ;;
    let '(m, self) := take m in
    let d := with_ents d (Some (nb, ns ++ [MEnt self None None])) in
    let m := linked_with m d in
    '(st, v) <- stream_inspect st (s2b "%") ;;
    let ty := if 0 <? v then EParameter else EGeneral in
    st <- (if 0 <? v then consume_spaces st else Ok st) ;;
    '(m, st, o) <- take_until m st false [s2b " "] ;;
    match o with
    | None => fail m st (-1) (s2b "Expected to receive a DTD entity name for <!ENTITY declaration, but not found")
    | Some (name, _) =>
      '(m, b) <- keep_chunk m ;;
      let d := with_ents d (Some (nb, ns ++ [MEnt self (Some b) None])) in
      let m := linked_with m d in
      let name := cstr name in
      st <- consume_spaces st ;;
      '(st, o) <- which st [(s2b "PUBLIC", Some None); (s2b "SYSTEM", Some None); (dquote, Some (Some dquote)); (s2b "'", Some (Some (s2b "'")))] None ;;
      match o with
      | None => fail m st (-2) (s2b "Expected to find entity value initiator ("") or ('), every entity value must start with them")
      | Some q =>
        '(m, d, st, content) <-
          match q with
          | None => Ok (m, d, st, None)
          | Some q =>
            '(m, st, o) <- take_until m st true [q] ;;
            match o with
            | Some (x, _) =>
              '(m, c) <- keep_chunk m ;;
              let d := with_ents d (Some (nb, ns ++ [MEnt self (Some b) (Some c)])) in
              Ok (linked_with m d, d, st, Some (cstr x))
            | None => m <- nullify m ;; Ok (m, d, st, None)
            end
          end ;;
        st <- consume_spaces st ;;
        '(st, v) <- stream_inspect st (s2b ">") ;;
        if 0 <? v then Ok (m, Some (d, (st, Load (l_elements l) (l_attrs l) (l_entities l ++ [Entity name ty content]) (l_id l) (l_idref l))))
        else fail m st (-2) (s2b "Expected to find entity definition terminator (>), but it wasn't found")
      end
    end.

(** the loop of __axl_dtd_parse_common, axl_dtd.c:1872-1913 *)
Fixpoint dtd_loop (fuel : nat) (m : book) (d : mdtd) (st : stream) (l : load) (iterator : Z) : res (book * option (mdtd * (stream * load))) :=
  match fuel with
  | O => NoFuel
  | S fuel =>
    '(st, more) <- stream_remains st ;;
    if negb more then Ok (m, Some (d, (st, l)))
    else
      '(m, (st, _)) <-? consume_comments m st pdoc_new ;;
      '(st, v) <- stream_peek st (s2b "<!ELEMENT") ;;
      if 0 <? v then '(m, (d, (st, l))) <-? parse_element m d st l ;; dtd_loop fuel m d st l iterator
      else
        '(st, v) <- stream_inspect st (s2b "<!ATTLIST") ;;
        if 0 <? v then '(m, (d, (st, l))) <-? parse_attlist fuel m d st l ;; dtd_loop fuel m d st l iterator
        else
          '(st, v) <- stream_peek st (s2b "<!ENTITY") ;;
          if 0 <? v then '(m, (d, (st, l))) <-? parse_entity m d st l ;; dtd_loop fuel m d st l iterator
          else if iterator =? 3 then
            fail m st (-1) (s2b "unable to process DTD content, unable to find expected information (no <!ELEMENT, <!ATTLIST or <!ENTITY declaration)")
          else dtd_loop fuel m d st l (iterator + 1)
  end.
(** __axl_dtd_parse_common, axl_dtd.c:1855-1939, once the stream is made: the DTD as memory
    and as rules *)
Definition parse_common (fuel : nat) (m : book) (st : stream) : res (book * option (mdtd * (dtd * list entity))) :=
  let '(m, self) := take m in
  let d := MDtd self None None None in
  let m := link (linked_with m d) in
  '(m, (d, (st, l))) <-? dtd_loop fuel m d st load_new 0 ;;
  root <- match l_elements l with [] => Ok None | els => r <- new_root fuel fuel els ;; Ok (Some r) end ;;
  if negb (l_id l) && l_idref l then
    fail m st (-1) (s2b "DTD semantic error, found IDREF attribute declaration but no attribute ID declaration was found.")
  else
    m <- unlink m ;;
    m <- stream_free m ;;
    Ok (m, Some (d, (Dtd (l_elements l) (l_attrs l) root (l_id l) (l_idref l), l_entities l))).
(** axl_dtd_parse, axl_dtd.c:1956-1961, and axl_dtd_parse_from_file, 2014-2018 *)
Definition dtd_parse (want : bool) (fuel : nat) (content : bytes) : res (book * option (mdtd * (dtd * list entity))) :=
  parse_common fuel (stream_new (book_new want) false) (stream_mem content).
Definition dtd_parse_file (want : bool) (fuel : nat) (file : option bytes) : res (book * option (mdtd * (dtd * list entity))) :=
  match file with
  | None => Ok (error_plain (book_new want) (-1) (s2b "unable to read file provided"), None)
  | Some content => st <- stream_file content ;; parse_common fuel (stream_new (book_new want) true) st
  end.
