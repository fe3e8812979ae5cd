(** Documents and nodes read from texts given in pieces: axl_doc_parse_strings of
    src/axl_doc.c, axl_node_parse_strings and axl_node_parse of src/axl_node.c.

    Simplifications: the list of arguments ends with NULL; the text axl_node_parse makes of
    its format is given (axl_strdup_printfv is vsnprintf); freeing the joined text is left
    out.  What becomes of the memory of the document is in KeepModel. *)
From Verif Require Import Prelude StrModel EscModel AttrModel TreeModel ParseModel.
Open Scope Z_scope.

(** axl_stream_concat with a first argument that may be NULL, axl_stream.c:3180-3222 *)
Definition concat_opt (a : option bytes) (b : bytes) : res bytes :=
  match a with None => c_strdup b | Some a => stream_concat a b end.
(** the loop, axl_doc.c:1980-1987, axl_node.c:639-646 *)
Fixpoint join_loop (acc : option bytes) (strings : list bytes) : res (option bytes) :=
  match strings with
  | [] => Ok acc
  | s :: r => x <- concat_opt acc s ;; join_loop (Some x) r
  end.
(** axl_doc_parse with the size -1, axl_doc.c:1849-1852, axl_stream.c:566-569: the bytes up
    to the terminator *)
Definition parse_buffer (b : bytes) : res (option doc) :=
  n <- c_strlen b ;; t <- mem_sub b 0 n ;; doc_parse t.
(** axl_doc_parse_strings, axl_doc.c:1965-2006; [err]: an error reference was given *)
Definition doc_parse_strings (err : bool) (strings : list bytes) : res (option doc) :=
  if negb err then Ok None else
  o <- join_loop None strings ;;
  match o with None => Ok None | Some b => parse_buffer b end.
(** axl_doc_get_root, axl_doc.c:2233-2239, and axl_node_deattach, axl_node.c:3569-3579, which
    on NULL returns; annotating NULL leaves it alone, 1719-1735 *)
Definition root_of (o : option doc) : option node :=
  match o with Some d => d_root d | None => None end.
(** axl_node_parse_strings, axl_node.c:624-680 *)
Definition node_parse_strings (err : bool) (strings : list bytes) : res (option node) :=
  if negb err then Ok None else
  o <- join_loop None strings ;;
  match o with
  | None => Ok None
  | Some b => d <- parse_buffer b ;; Ok (root_of d)
  end.
(** axl_node_parse, axl_node.c:708-746, on the text made of its format *)
Definition node_parse (b : bytes) : res (option node) :=
  d <- parse_buffer b ;; Ok (root_of d).
