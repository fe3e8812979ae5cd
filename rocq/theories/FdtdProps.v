(** Loading a document type definition from a file. *)
From Verif Require Import Prelude StrSpec StreamModel XmlSpec DtdModel DtdSpec DtdDocModel DtdDocSpec LoadModel LoadSpec LoadProofs10 LoadCases FdtdProofs FdtdProofs2 FdtdProofs3 FdtdProofs4 FdtdCases.
Open Scope nat_scope.
Open Scope list_scope.

(** C74: whatever the bytes of the file, with parameter entities or not, loading it never
    goes outside the buffer, which is refilled, moved and written into on the way. *)
Theorem C74_no_fault : forall fuel content, dtd_parse_file fuel content <> UB.
Proof. exact file_no_ub. Qed.
Print Assumptions C74_no_fault.
Example C74_no_fault_case :
  map (dtd_parse_file 20) [str "<!ELEMENT x (a"; str "<!ATTLIST x a ("; str "<!ENTITY x '"; str "<!ENTITY % t 'CDATA'><!ATTLIST x a %t;"] = [Ok None; Ok None; Ok None; Ok None].
Proof. vm_compute. reflexivity. Qed.

(** and it ends for files without "%": the declarations are read with a bound on the steps
    that is known before, and the search of the root ends if the elements do not contain
    each other in a cycle.
    Missing: files with parameter entities. *)
Theorem C74_ends_partial : forall content, ~ In "%"%char content ->
  exists o : option load,
    (forall fuel, length content + 5 <= fuel ->
       match o with
       | None => (st <- stream_file content ;; dtd_loop fuel st load_new 0) = Ok None
       | Some l => exists st, (st <- stream_file content ;; dtd_loop fuel st load_new 0) = Ok (Some (st, l))
       end) /\
    ((forall l, o = Some l -> acyclic (l_elements l)) -> exists n r, forall fuel, n <= fuel -> dtd_parse_file fuel content = Ok r).
Proof. exact load_file_ends. Qed.
Print Assumptions C74_ends_partial.
Example C74_ends_case : ~ In "%"%char (pairs ++ str " ") /\ exists r, dtd_parse_file (length pairs + 6) (pairs ++ str " ") = Ok (Some r).
Proof. split; [intros I; cbn in I; repeat (destruct I as [I|I]; [discriminate|]); destruct I|]. eexists. vm_compute. reflexivity. Qed.

(** A file of any size, wherever the buffer ends in it, gives what its content gives in
    memory: the same declarations, or a refusal.
    Missing: files with comments or "%", and those that do not end with white space. *)
Theorem C74_same_partial : forall fuel content r, (exists body w, content = body ++ [w] /\ In w [" "; "009"; "010"; "013"]%char) ->
  (forall u v, content <> u ++ str "<!--" ++ v) -> ~ In "%"%char content ->
  dtd_parse fuel content = Ok r -> dtd_parse_file fuel content = Ok r.
Proof. exact same_file. Qed.
Print Assumptions C74_same_partial.
Example C74_same_case : (exists body w, lines = body ++ [w] /\ In w [" "; "009"; "010"; "013"]%char) /\
  (forall u v, lines <> u ++ str "<!--" ++ v) /\ ~ In "%"%char lines /\ exists r, dtd_parse 20 lines = Ok (Some r).
Proof.
  split; [exists (removelast lines), "010"%char; split; [reflexivity|right; right; left; reflexivity]|].
  split; [apply none_before; vm_compute; reflexivity|].
  split; [intros I; cbn in I; repeat (destruct I as [I|I]; [discriminate|]); destruct I|]. eexists. vm_compute. reflexivity.
Qed.
(** So a file with the text of well-formed declarations is accepted, and what is loaded is
    what they declare.
    Missing: as above and as for C50_loads_partial. *)
Theorem C74_loads_partial : forall text ds, dtd_text text ds -> declared_well ds -> groups_shown ds ->
  (exists body w, text = body ++ [w] /\ In w [" "; "009"; "010"; "013"]%char) -> (forall u v, text <> u ++ str "<!--" ++ v) -> ~ In "%"%char text ->
  exists n, forall fuel, n <= fuel -> exists d ents, dtd_parse_file fuel text = Ok (Some (d, ents)) /\ loaded ds d ents.
Proof. exact loads_file. Qed.
Print Assumptions C74_loads_partial.
Example C74_loads_case : dtd_text lines lines_decls /\ declared_well lines_decls /\ groups_shown lines_decls /\
  lines = str "<!ELEMENT doc (head, item+)>" ++ ["010"%char] ++ str "<!ELEMENT head (#PCDATA)>" ++ ["010"%char].
Proof. split; [exact lines_text|]. split; [exact lines_well|]. split; [exact lines_shown|]. reflexivity. Qed.
