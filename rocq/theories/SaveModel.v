(** Documents and nodes dumped to files: axl_doc_dump_to_file, axl_doc_dump_pretty_to_file,
    axl_node_dump_to_file and axl_node_dump_pretty_to_file.

    Simplifications: one file is in sight, [None] when it does not exist; the release of
    the dump (axl_free) and the log lines are dropped; the error that
    axl_doc_dump_pretty_to_file gets and frees is dropped. What fopen, fwrite and fclose do is
    a parameter. *)
From Verif Require Import Prelude StrModel TreeModel DumpModel.
Open Scope Z_scope.

(** What the system does with the file: whether fopen (path, "w") succeeds (it empties the
    file), how many bytes fwrite accepts at most (it reports how many it accepted), and how
    many of the accepted bytes are in the file after fclose (stdio keeps them in a buffer
    until then, and fclose may fail to write them: its result is not looked at) *)
Record disk := Disk { k_open : bool; k_take : nat; k_keep : nat }.

(** The common end of the four functions, axl_doc.c:1654-1678 and 1728-1756, axl_node.c:4368-4395
    and 4426-4454: the answer and the file *)
Definition write_file (k : disk) (file : option bytes) (content : bytes) (size : Z) : res (bool * option bytes) :=
  if negb (k_open k) then Ok (false, file)
  else
    text <- mem_sub content 0 size ;;
    let accepted := firstn (k_take k) text in
    Ok (Z.of_nat (length accepted) =? size, Some (firstn (k_keep k) accepted)).
Definition dump_file (k : disk) (file : option bytes) (dump : res (option (bytes * Z))) : res (bool * option bytes) :=
  x <- dump ;;
  match x with
  | None => Ok (false, file)
  | Some (content, size) => write_file k file content size
  end.

(** axl_doc_dump_to_file, axl_doc.c:1637-1679 *)
Definition doc_dump_to_file (k : disk) (file : option bytes) (d : doc) : res (bool * option bytes) :=
  dump_file k file (doc_dump_common d false 0).
(** axl_doc_dump_pretty_to_file, axl_doc.c:1709-1757 *)
Definition doc_dump_pretty_to_file (k : disk) (file : option bytes) (d : doc) (tabular : Z) : res (bool * option bytes) :=
  dump_file k file (doc_dump_common d true tabular).
(** axl_node_dump_to_file, axl_node.c:4356-4397: it asks for the pretty layout *)
Definition node_dump_to_file (k : disk) (file : option bytes) (n : node) : res (bool * option bytes) :=
  dump_file k file (node_dump_common n true 0 0).
(** axl_node_dump_pretty_to_file, axl_node.c:4413-4455 *)
Definition node_dump_pretty_to_file (k : disk) (file : option bytes) (n : node) (tabular : Z) : res (bool * option bytes) :=
  dump_file k file (node_dump_common n true 0 tabular).
