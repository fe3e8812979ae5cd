(** axl-knife --htmlize: a document shown as HTML (knife/axl-knife.c).

    Simplifications: what is written is the list of its bytes, and writing never fails;
    the options of the command line are arguments ([skip]: htmlize-skip-first-enter-for-content;
    [cls]: the value of pre-class); the output is the standard one, or a file that could be
    opened.  fprintf of NULL is [UB]. *)
From Verif Require Import Prelude StrModel EscModel AttrModel TreeModel.
Open Scope nat_scope.
Open Scope list_scope.

Definition LF : ascii := "010"%char.

(** __translate_content, axl-knife.c:70-77 (axl_replace: axl_stream.h:302); the block is the
    content of an item *)
Definition translate_content (content : bytes) : res bytes :=
  b <- c_strdup (cs content) ;;
  '(b, _) <- stream_replace b (-1) (cs (s2b "<")) (-1) (cs (s2b "&lt;")) (-1) ;;
  '(b, _) <- stream_replace b (-1) (cs (s2b ">")) (-1) (cs (s2b "&gt;")) (-1) ;;
  Ok (cstr b).

(** axl_knife_introduce_indentation, axl-knife.c:332-343 *)
Fixpoint indentation (level : nat) : bytes :=
  match level with O => [] | S l => s2b "   " ++ indentation l end.

Definition quoted (s : string) : bytes := "034"%char :: s2b s ++ ["034"%char].
(** the beginnings of the spans *)
Definition span (class : string) : bytes := s2b "<span class=" ++ quoted class ++ s2b ">".

(** one attribute, axl-knife.c:371-373 and 382-384 *)
Definition attr_html (o : option (bytes * option bytes)) : res bytes :=
  match o with
  | Some (k, Some v) => Ok (k ++ s2b "=" ++ span "attrvalue" ++ ["034"%char] ++ v ++ ["034"%char] ++ s2b "</span> ")
  | _ => UB
  end.
(** the loop for one or two attributes, axl-knife.c:368-377 *)
Fixpoint attrs_short (fuel : nat) (a : attrs) (c : acursor) : res bytes :=
  match fuel with
  | O => NoFuel
  | S fuel =>
    if attr_cursor_has_item a c then
      o <- attr_cursor_get a c ;;
      x <- attr_html o ;;
      c <- attr_cursor_next a c ;;
      r <- attrs_short fuel a c ;;
      Ok (x ++ r)
    else Ok []
  end.
(** the loop for more, one on each line, axl-knife.c:379-404 *)
Fixpoint attrs_long (fuel : nat) (skip : bool) (level : nat) (name : bytes) (a : attrs) (c : acursor) : res bytes :=
  match fuel with
  | O => NoFuel
  | S fuel =>
    if attr_cursor_has_item a c then
      o <- attr_cursor_get a c ;;
      x <- attr_html o ;;
      c <- attr_cursor_next a c ;;
      let sep :=
        if attr_cursor_has_item a c then
          (if skip then [] else [LF]) ++ indentation level ++ repeat " "%char (length name + 2)
        else [] in
      r <- attrs_long fuel skip level name a c ;;
      Ok (x ++ sep ++ r)
    else Ok []
  end.

(** axl_knife_htmlize_iterator_node, axl-knife.c:345-511, and the cases of its switch,
    axl-knife.c:442-498.  The bound of the attribute loops is the number of attributes plus one. *)
Fixpoint html_node (skip : bool) (level : nat) (n : node) {struct n} : res bytes :=
  let '(Node name a items) := n in
  let first := indentation level in
  let enter := if skip then [] else [LF] in
  head <-
    (if has_attributes a then
       c <- attr_cursor_new a ;;
       num <- num_attributes a ;;
       ats <- (if (num <? 3)%Z then attrs_short (S (Z.to_nat num)) a c
               else attrs_long (S (Z.to_nat num)) skip level name a c) ;;
       Ok (s2b "&lt;" ++ span "node" ++ name ++ s2b "</span> " ++ ats ++
           match items with [] => s2b "/>" | _ => s2b ">" end ++ enter)
     else
       Ok (s2b "&lt;" ++ span "node" ++ name ++ s2b "</span>>" ++
           (if node_have_childs n && negb skip then [LF] else []))) ;;
  if has_attributes a && match items with [] => true | _ => false end then Ok (first ++ head)
  else
    body <- (fix go (l : list item) : res bytes :=
               match l with
               | [] => Ok []
               | i :: r => x <- html_item skip level i ;; y <- go r ;; Ok (x ++ y)
               end) items ;;
    Ok (first ++ head ++ body ++
        (if node_have_childs n then indentation level else []) ++
        match items with
        | [] => []
        | _ => s2b "&lt;/" ++ span "node" ++ name ++ s2b "</span>>" ++ [LF]
        end)
with html_item (skip : bool) (level : nat) (i : item) {struct i} : res bytes :=
  match i with
  | INode n => html_node skip (S level) n
  | IContent b => translate_content b
  | IPi _ | IRef _ => Ok []
  | IComment b =>
    ref <- translate_content b ;;
    Ok (indentation (S level) ++ span "comment" ++ s2b "&lt;!-- " ++ ref ++ s2b " --></span>" ++ [LF])
  | ICdata b =>
    ref <- translate_content b ;;
    Ok (span "cdata" ++ s2b "&lt;![CDATA[</span>" ++ ref ++ span "cdata" ++ s2b "]]></span>")
  end.

(** axl_knife_htmlize, axl-knife.c:513-545 *)
Definition htmlize (skip : bool) (cls : option bytes) (d : doc) : res bytes :=
  root <- of_option (d_root d) ;;
  body <- html_node skip 0 root ;;
  Ok ((match cls with
       | Some v => s2b "<pre class='" ++ v ++ s2b "'>"
       | None => s2b "<pre>"
       end ++ [LF]) ++ body ++ s2b "</pre>" ++ [LF]).
