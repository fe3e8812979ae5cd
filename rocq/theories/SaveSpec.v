(** What saving to a file and loading from it is expected to do. *)
From Verif Require Import Prelude StrSpec TreeModel ParseModel XmlSpec SaveModel.

(** nothing that fwrite accepts is lost *)
Definition keeps (k : disk) : Prop := (k_take k <= k_keep k)%nat.
(** the file can be written and there is room for [size] bytes *)
Definition has_room (k : disk) (size : nat) : Prop := k_open k = true /\ (size <= k_take k <= k_keep k)%nat.

Definition no_gt (s : bytes) : Prop := has ">" s = false.
Definition no_lt (s : bytes) : Prop := has "<" s = false.

(** no [>] in attribute values, texts, CDATA sections, comments and contents of processing
    instructions; no text begins with white space *)
Inductive sober : xnode -> Prop :=
| Sober name ats l : Forall (fun p => forall v, snd p = Some v -> no_gt v) ats -> sober_items l -> sober (XNode name ats l)
with sober_items : list xitem -> Prop :=
| sober_nil : sober_items []
| sober_elem x l : sober x -> sober_items l -> sober_items (XElem x :: l)
| sober_text t l : no_gt t -> white (hd NUL t) = false -> sober_items l -> sober_items (XText t :: l)
| sober_cdata t l : no_gt t -> sober_items l -> sober_items (XCdata t :: l)
| sober_pi n c l : no_gt c -> sober_items l -> sober_items (XPi n (Some c) :: l)
| sober_comment t l : no_gt t -> sober_items l -> sober_items (XComment t :: l).

(** only elements and texts, and no [<] in attribute values *)
Inductive basic : xnode -> Prop :=
| Basic name ats l : Forall (fun p => forall v, snd p = Some v -> no_lt v) ats -> basic_items l -> basic (XNode name ats l)
with basic_items : list xitem -> Prop :=
| basic_nil : basic_items []
| basic_elem x l : basic x -> basic_items l -> basic_items (XElem x :: l)
| basic_text t l : basic_items l -> basic_items (XText t :: l).

(** an encoding that can be written in the declaration *)
Definition plain_encoding (e : option bytes) : Prop :=
  forall v, e = Some v -> nul_free v /\ has "'" v = false /\ has "034" v = false /\ no_gt v /\ no_lt v.

(** the length of the text of the file is at most that of the buffer of a file stream
    (8192 bytes, axl_stream.c:68) *)
Definition short (text : bytes) : Prop := (N.of_nat (length text) <= 8192)%N.

(** Given what dumping answers, what saving answers and leaves in the file: it succeeds when
    there is room; if it answers true the file holds the text of the dump, and if it answers
    false the file is as before or holds only a part of it; a file that cannot be opened is
    not touched *)
Definition saved (k : disk) (file : option bytes) (dump : res (option (bytes * Z))) (result : res (bool * option bytes)) : Prop :=
  exists text ok file', dump = Ok (Some (text ++ [NUL], Z.of_nat (length text))) /\ result = Ok (ok, file') /\
    (ok = true -> file' = Some text) /\
    (ok = false -> file' = file \/ exists p q, file' = Some p /\ text = p ++ q /\ q <> []) /\
    (has_room k (length text) -> ok = true) /\ (k_open k = false -> ok = false /\ file' = file).

(** loading the file gives a document with the tree, the encoding and the standalone mark
    (comments with a space on each side, as they are written) *)
Definition loaded (file : bytes) (x : xnode) (e : option bytes) (sa : bool) : Prop :=
  exists d n, doc_parse_file file = Ok (Some d) /\ d_root d = Some n /\ shows n (pad_tree x) /\ d_encoding d = e /\ d_standalone d = sa /\ d_pis d = [].
