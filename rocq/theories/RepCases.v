(** Concrete cases for C60. *)
From Verif Require Import Prelude TreeModel RepModel RepSpec.
Open Scope Z_scope.

Definition outcome (r : res (book * option doc)) : option (bool * list (Z * option (Z * Z * bytes * bytes)) * option nat) :=
  match r with
  | Ok (m, o) => Some (match o with Some _ => true | None => false end, map (fun r => (r_code r, r_where r)) (reports m),
                       match settle m o with Ok m' => Some (length (live m')) | _ => None end)
  | _ => None
  end.

(** a document with instructions, comments, attributes and contents *)
Example C60_good :
  outcome (doc_parse true (s2b "<?xml version='1.0' encoding='a' standalone='yes' ?><?a b?><!-- c --><d e='f' g=""h""><i/>text<?j k?><![CDATA[<]]></d>")) =
  Some (true, [], Some 0%nat).
Proof. vm_compute. reflexivity. Qed.

(** an attribute without value: the error shows where *)
Example C60_bad :
  outcome (doc_parse true (s2b "<a><b c='d' e></b></a>")) = Some (false, [(-2, Some (22, 12, s2b "><b c='d' e></b></a>", s2b "e></b></a>"))], Some 0%nat).
Proof. vm_compute. reflexivity. Qed.
Example C60_quiet : outcome (doc_parse false (s2b "<a><b c='d' e></b></a>")) = Some (false, [], Some 0%nat).
Proof. vm_compute. reflexivity. Qed.

(** the block that is lost *)
Example C60_lost : outcome (doc_parse true (s2b "<?xml version='1.0' ?><?a b?><c")) = Some (false, [(-2, Some (31, 30, s2b "?><?a b?><c", s2b "c"))], Some 1%nat).
Proof. vm_compute. reflexivity. Qed.

(** files *)
Example C60_no_file : outcome (doc_parse_file true None) = Some (false, [(-1, None)], Some 0%nat).
Proof. vm_compute. reflexivity. Qed.
Example C60_file : outcome (doc_parse_file true (Some (s2b "<a><b/></a>"))) = Some (true, [], Some 0%nat).
Proof. vm_compute. reflexivity. Qed.
(** of a file: the end tag has no end, and what is told is the part of the file from byte 3 on;
    an element is closed by another name *)
Example C60_file_place :
  outcome (doc_parse_file true (Some (s2b "<a><b/></a"))) = Some (false, [(-1, Some (7, 6, s2b "<b/></a", s2b "a"))], Some 0%nat) /\
  outcome (doc_parse_file true (Some (s2b "<a>0123456789</c>0123456789</a>"))) = Some (false, [(-1, Some (31, 17, s2b "456789</c", s2b "0123456789"))], Some 0%nat).
Proof. vm_compute. split; reflexivity. Qed.
