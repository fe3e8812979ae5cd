(** Model of the serialisation of documents, src/axl_doc.c and src/axl_node.c: the
    size is computed first, then everything is written into one block of that size
    plus one.  A write outside of the block is [UB], as is strlen of a NULL string.
    Simplification: built for Unix, so that line ends are a single \n. *)
From Verif Require Import Prelude StrModel HashModel AttrModel TreeModel.
Open Scope Z_scope.

(** strlen on a string that may be NULL *)
Definition len (s : option bytes) : res Z :=
  match s with None => UB | Some s => c_strlen (cs s) end.

(** the attributes in the order of the list or of the hash *)
Definition attr_pairs (a : attrs) : res (list (bytes * option bytes)) := attr_foreach (fun _ _ => false) a.

(** __axl_node_get_flat_size_attributes and its foreach, axl_node.c:4541-4592 *)
Fixpoint pairs_size (l : list (bytes * option bytes)) (acc : Z) : res Z :=
  match l with
  | [] => Ok acc
  | (k, v) :: r =>
    x <- len (Some k) ;;
    y <- len v ;;
    pairs_size r (acc + (4 + x + y))
  end.
Definition attrs_size (a : attrs) : res Z := l <- attr_pairs a ;; pairs_size l 0.

(** axl_pi_get_size, axl_doc.c:2949-2955 *)
Definition pi_size (p : pi) : res Z :=
  x <- len (Some (pi_name p)) ;; y <- len (pi_content p) ;; Ok (x + y + 5).

(** axl_node_get_flat_size, axl_node.c:4609-4732 *)
Fixpoint node_flat_size (n : node) (pretty : bool) (level tabular : Z) {struct n} : res Z :=
  let '(Node name a items) := n in
  let is_empty := node_is_empty n in
  let have_childs := node_have_childs_aux n in
  l <- len (Some name) ;;
  s <- attrs_size a ;;
  if have_childs || negb is_empty then
    let result := 5 + 2 * l + s in
    let result :=
      if pretty then
        if have_childs then result + (level * tabular * 2 + 2) else result + (level * tabular + 1)
      else result in
    (fix go (l : list item) (acc : Z) {struct l} : res Z :=
       match l with
       | [] => Ok acc
       | i :: r => x <- item_flat_size i pretty level tabular ;; go r (acc + x)
       end) items result
  else
    let result := l + 4 + s in
    Ok (if pretty then result + (level * tabular + 1) else result)
with item_flat_size (i : item) (pretty : bool) (level tabular : Z) {struct i} : res Z :=
  match i with
  | INode n => node_flat_size n pretty (level + 1) tabular
  | IContent b => Ok (Z.of_nat (length b))
  | ICdata b => Ok (Z.of_nat (length b) + 12)
  | IPi p => pi_size p
  | IComment b =>
    let size := Z.of_nat (length b) in
    f <- rd (cs b) 0 ;;
    e <- rd (cs b) (size - 1) ;;
    let f := Ascii.eqb f " " in
    let e := Ascii.eqb e " " in
    let result :=
      if f && e then size + 7
      else if negb f && e then size + 8
      else if f && negb e then size + 8
      else size + 9 in
    Ok (if pretty then result + ((level + 1) * tabular + 1) else result)
  | IRef b => Ok (Z.of_nat (length b) + 2)
  end.

(** memcpy (content + desp, s, |s|); desp += |s| *)
Definition put (b : bytes) (desp : Z) (s : bytes) : res (bytes * Z) :=
  b <- memcpy_to b desp s ;; Ok (b, desp + Z.of_nat (length s)).

(** memcpy (content + desp, s, strlen (s)) *)
Definition put_str (b : bytes) (desp : Z) (s : option bytes) : res (bytes * Z) :=
  match s with
  | None => UB
  | Some s => n <- c_strlen (cs s) ;; t <- mem_sub (cs s) 0 n ;; put b desp t
  end.

(** strstr (value, "'") == NULL *)
Definition no_quote (v : bytes) : bool := negb (existsb (fun c => Ascii.eqb c "'") (cstr (cs v))).
Definition DQ : ascii := "034"%char.
Definition LF : ascii := "010"%char.

(** __axl_node_dump_attributes_at_foreach, axl_node.c:4734-4780 *)
Definition dump_pair (p : bytes * option bytes) (b : bytes) (desp : Z) : res (bytes * Z) :=
  let '(k, v) := p in
  '(b, desp) <- put b desp (s2b " ") ;;
  '(b, desp) <- put_str b desp (Some k) ;;
  match v with
  | None => UB
  | Some w =>
    let q := if no_quote w then "'"%char else DQ in
    '(b, desp) <- put b desp ["="%char; q] ;;
    '(b, desp) <- put_str b desp v ;;
    put b desp [q]
  end.
Fixpoint dump_pairs (l : list (bytes * option bytes)) (b : bytes) (desp : Z) : res (bytes * Z) :=
  match l with
  | [] => Ok (b, desp)
  | p :: r => '(b, desp) <- dump_pair p b desp ;; dump_pairs r b desp
  end.
(** axl_node_dump_attributes_at, axl_node.c:4805-4826: a list is dumped from its end
    (__axl_node_dump_at_the_end, 4782-4797) *)
Definition dump_attributes_at (a : attrs) (b : bytes) (desp : Z) : res (bytes * Z) :=
  l <- attr_pairs a ;;
  dump_pairs (if a_num a <=? 10 then rev l else l) b desp.

(** __axl_node_dump_at_write_indent, axl_node.c:4841-4854 *)
Fixpoint indent_loop (n : nat) (b : bytes) (desp : Z) : res (bytes * Z) :=
  match n with
  | O => Ok (b, desp)
  | S n => '(b, desp) <- put b desp (s2b " ") ;; indent_loop n b desp
  end.
Definition write_indent (b : bytes) (desp tabular level : Z) : res (bytes * Z) :=
  indent_loop (Z.to_nat (tabular * level)) b desp.
Definition when (p : bool) (f : bytes -> Z -> res (bytes * Z)) (b : bytes) (desp : Z) : res (bytes * Z) :=
  if p then f b desp else Ok (b, desp).

(** axl_node_dump_at, axl_node.c:5009-5142 *)
Fixpoint dump_at (n : node) (b : bytes) (desp : Z) (pretty : bool) (level tabular : Z) {struct n} : res (bytes * Z) :=
  let '(Node name a items) := n in
  let have_childs := node_have_childs_aux n in
  '(b, desp) <- when pretty (fun b desp => write_indent b desp tabular level) b desp ;;
  if node_is_empty n && negb have_childs then
    '(b, desp) <- put b desp (s2b "<") ;;
    '(b, desp) <- put_str b desp (Some name) ;;
    '(b, desp) <- dump_attributes_at a b desp ;;
    '(b, desp) <- put b desp (s2b " />") ;;
    when pretty (fun b desp => put b desp [LF]) b desp
  else
    '(b, desp) <- put b desp (s2b "<") ;;
    '(b, desp) <- put_str b desp (Some name) ;;
    '(b, desp) <- dump_attributes_at a b desp ;;
    '(b, desp) <- put b desp (s2b ">") ;;
    '(b, desp) <- when (have_childs && pretty) (fun b desp => put b desp [LF]) b desp ;;
    '(b, desp) <-
      (fix go (l : list item) (b : bytes) (desp : Z) {struct l} : res (bytes * Z) :=
         match l with
         | [] => Ok (b, desp)
         | i :: r => '(b, desp) <- dump_item i b desp pretty level tabular ;; go r b desp
         end) items b desp ;;
    '(b, desp) <- when (have_childs && pretty) (fun b desp => write_indent b desp tabular level) b desp ;;
    '(b, desp) <- put b desp (s2b "</") ;;
    '(b, desp) <- put_str b desp (Some name) ;;
    '(b, desp) <- put b desp (s2b ">") ;;
    when pretty (fun b desp => put b desp [LF]) b desp
(** one turn of __axl_node_dump_items, axl_node.c:4857-4992 *)
with dump_item (i : item) (b : bytes) (desp : Z) (pretty : bool) (level tabular : Z) {struct i} : res (bytes * Z) :=
  match i with
  | INode n => dump_at n b desp pretty (level + 1) tabular
  | IContent s => put b desp s
  | ICdata s =>
    '(b, desp) <- put b desp (s2b "<![CDATA[") ;;
    '(b, desp) <- put b desp s ;;
    put b desp (s2b "]]>")
  | IPi p =>
    '(b, desp) <- put b desp (s2b "<?") ;;
    '(b, desp) <- put_str b desp (Some (pi_name p)) ;;
    '(b, desp) <- put b desp (s2b " ") ;;
    '(b, desp) <- put_str b desp (pi_content p) ;;
    put b desp (s2b "?>")
  | IComment s =>
    '(b, desp) <- when pretty (fun b desp => write_indent b desp tabular (level + 1)) b desp ;;
    f <- rd (cs s) 0 ;;
    '(b, desp) <- put b desp (if Ascii.eqb f " " then s2b "<!--" else s2b "<!-- ") ;;
    '(b, desp) <- put b desp s ;;
    e <- rd (cs s) (Z.of_nat (length s) - 1) ;;
    '(b, desp) <- put b desp (if Ascii.eqb e " " then s2b "-->" else s2b " -->") ;;
    when pretty (fun b desp => put b desp [LF]) b desp
  | IRef s =>
    '(b, desp) <- put b desp (s2b "&") ;;
    '(b, desp) <- put b desp s ;;
    put b desp (s2b ";")
  end.

(** axl_new (char, size + 1) *)
Definition new_block (size : Z) : bytes := repeat NUL (Z.to_nat (size + 1)).

(** __axl_node_dump_common, axl_node.c:4254-4293: the block, and the size reported *)
Definition node_dump_common (n : node) (pretty : bool) (level tabular : Z) : res (option (bytes * Z)) :=
  size <- node_flat_size n pretty level tabular ;;
  '(b, index) <- dump_at n (new_block size) 0 pretty level tabular ;;
  if index =? size then Ok (Some (b, size)) else Ok None.
(** axl_node_dump and axl_node_dump_pretty, axl_node.c:4310-4345 *)
Definition node_dump (n : node) : res (option (bytes * Z)) := node_dump_common n false 0 0.
Definition node_dump_pretty (n : node) (tabular : Z) : res (option (bytes * Z)) := node_dump_common n true 0 tabular.

(** __axl_doc_get_flat_size_common, axl_doc.c:1400-1443; axl_node_get_flat_size
    answers -1 for a document without root *)
Definition doc_flat_size (d : doc) (pretty : bool) (tabular : Z) : res Z :=
  let result := 22 in
  let result := if pretty then result + 1 else result in
  let result := if d_standalone d then result + 17 else result in
  result <- match d_encoding d with
            | None => Ok result
            | Some e => l <- len (Some e) ;; Ok (result + (12 + l))
            end ;;
  s <- match d_root d with None => Ok (-1) | Some n => node_flat_size n pretty 0 tabular end ;;
  Ok (result + s).

(** __axl_doc_dump_common, axl_doc.c:1449-1561; axl_node_dump_at answers -1 for a
    document without root *)
Definition doc_dump_common (d : doc) (pretty : bool) (tabular : Z) : res (option (bytes * Z)) :=
  size <- doc_flat_size d pretty tabular ;;
  if size =? -1 then Ok None
  else
    '(b, index) <- put (new_block size) 0 (s2b "<?xml version='1.0' ") ;;
    '(b, index) <-
      match d_encoding d with
      | None => Ok (b, index)
      | Some e =>
        '(b, index) <- put b index (s2b "encoding='") ;;
        '(b, index) <- put_str b index (Some e) ;;
        put b index (s2b "' ")
      end ;;
    '(b, index) <- when (d_standalone d) (fun b i => put b i (s2b "standalone='yes' ")) b index ;;
    '(b, index) <- put b index (s2b "?>") ;;
    '(b, index) <- when pretty (fun b i => put b i [LF]) b index ;;
    '(b, index) <- match d_root d with None => Ok (b, -1) | Some n => dump_at n b index pretty 0 tabular end ;;
    if size =? index then Ok (Some (b, index)) else Ok None.
(** axl_doc_dump and axl_doc_dump_pretty, axl_doc.c:1579-1611 *)
Definition doc_dump (d : doc) : res (option (bytes * Z)) := doc_dump_common d false 0.
Definition doc_dump_pretty (d : doc) (tabular : Z) : res (option (bytes * Z)) := doc_dump_common d true tabular.
