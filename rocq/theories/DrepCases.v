(** Concrete cases for C61. *)
From Verif Require Import Prelude DtdModel DtdDocModel RepModel RepSpec DrepModel DrepSpec.
Open Scope Z_scope.

Definition outcome (r : res (book * option (mdtd * (dtd * list entity)))) : option (bool * list (Z * option (Z * Z * bytes * bytes)) * option nat) :=
  match r with
  | Ok (m, o) => Some (match o with Some _ => true | None => false end, map (fun r => (r_code r, r_where r)) (reports m),
                       match settle_dtd m o with Ok m' => Some (length (live m')) | _ => None end)
  | _ => None
  end.

(** elements with nested contents, attributes with enumerations and defaults for two
    elements, in two declarations for one of them, entities, references to them, comments *)
Definition good : bytes :=
  s2b "<!-- c --><!ENTITY % x ""CDATA""><!ENTITY y 'z'><!ELEMENT a (b, (c | (d, e)*)+, f?)> <!ELEMENT b EMPTY><!ELEMENT c ANY><!ELEMENT d (#PCDATA)><!ELEMENT e EMPTY><!ELEMENT f EMPTY>"
  ++ s2b "<!ATTLIST a g (h | i) ""h"" j %x; #REQUIRED><!ATTLIST b k ID #IMPLIED><!ATTLIST a l CDATA #FIXED 'm'>".
Example C61_good : outcome (dtd_parse true 400 good) = Some (true, [], Some 0%nat).
Proof. vm_compute. reflexivity. Qed.
(** the blocks of this DTD *)
Example C61_size : match dtd_parse true 400 good with Ok (m, Some (d, _)) => Some (length (live m), length (freed_dtd d)) | _ => None end = Some (63%nat, 63%nat).
Proof. vm_compute. reflexivity. Qed.

(** no value for an entity: the error shows where *)
Example C61_bad : outcome (dtd_parse true 100 (s2b "<!ELEMENT a (b)><!ENTITY c d><!ELEMENT e EMPTY>")) =
  Some (false, [(-2, Some (47, 27, s2b "!ENTITY c d><!ELEMEN", s2b "d><!ELEMEN"))], Some 0%nat).
Proof. vm_compute. reflexivity. Qed.
Example C61_quiet : outcome (dtd_parse false 100 (s2b "<!ELEMENT a (b)><!ENTITY c d><!ELEMENT e EMPTY>")) = Some (false, [], Some 0%nat).
Proof. vm_compute. reflexivity. Qed.
(** the same after the attribute list of another element, with a message that names it *)
Example C61_attribute : outcome (dtd_parse true 100 (s2b "<!ATTLIST a b ID #REQUIRED c (d|e) 'd' f ID #REQUIRED>")) =
  Some (false, [(-1, Some (54, 53, s2b " #REQUIRED>", s2b ">"))], Some 0%nat).
Proof. vm_compute. reflexivity. Qed.

(** the blocks that are lost *)
Example C61_lost : outcome (dtd_parse true 100 (s2b "<!ELEMENT a (b, (c | d), e")) =
  Some (false, [(-1, Some (26, 25, s2b " (c | d), e", s2b "e"))], Some 13%nat).
Proof. vm_compute. reflexivity. Qed.

(** files *)
Example C61_no_file : outcome (dtd_parse_file true 10 None) = Some (false, [(-1, None)], Some 0%nat).
Proof. vm_compute. reflexivity. Qed.
Example C61_file : outcome (dtd_parse_file true 100 (Some (s2b "<!ELEMENT a (b)>"))) = Some (true, [], Some 0%nat).
Proof. vm_compute. reflexivity. Qed.
(** a reference without a value moves the position back; the error is told there *)
Example C61_file_reference : outcome (dtd_parse_file true 100 (Some (s2b "<!ATTLIST a b %z; #REQUIRED>"))) =
  Some (false, [(-1, Some (28, 14, s2b "TLIST a b %z; #REQUI", s2b "%z; #REQUI"))], Some 0%nat).
Proof. vm_compute. reflexivity. Qed.
(** a value has no end: what is told is the part of the file from byte 27 on *)
Example C61_file_place :
  outcome (dtd_parse_file true 100 (Some (s2b "<!ELEMENT a (b)><!ENTITY c 'd"))) = Some (false, [(-2, Some (2, 1, s2b "'d", s2b "d"))], Some 0%nat) /\
  outcome (dtd_parse_file true 100 (Some (s2b "<!ELEMENT a (b)><!ENTITY c d><!ELEMENT e EMPTY>"))) =
  Some (false, [(-2, Some (47, 27, s2b "!ENTITY c d><!ELEMEN", s2b "d><!ELEMEN"))], Some 0%nat).
Proof. vm_compute. split; reflexivity. Qed.
