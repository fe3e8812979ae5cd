(** C46: annotations. *)
From Verif Require Import Prelude ItemModel ItemSpec NoteModel NoteSpec NoteExec NoteProofs.
Open Scope list_scope.
Open Scope nat_scope.

(** After any history of tree edits and annotations, each node gives for each key what was
    last stored there, and nothing if nothing was. *)
Theorem C46_last_stored :
  forall ops s m, nspec fam_new no_notes ops = Some (s, m) ->
  exists t, nrun nheap_new ops = Ok t /\
    forall n k fuel, known s n = true -> annotate_get fuel t n k false = Ok (m n k).
Proof. intros ops s m H. destruct (annotations ops s m H) as (t & E & A & _). exact (ex_intro _ t (conj E A)). Qed.
Print Assumptions C46_last_stored.

(** With lookup in the parents, it gives the value of the nearest node that has one, and the
    typed functions give it as a number, text or double.  Missing: when no node has one and
    the topmost node was once attached to another and removed again (false, below). *)
Theorem C46_nearest_partial :
  forall ops s m, nspec fam_new no_notes ops = Some (s, m) ->
  exists t, nrun nheap_new ops = Ok t /\
    forall n k l, known s n = true -> line s n l -> always_top ops (last l 0) = true \/ nearest m k l <> None ->
    exists f, forall fuel, f <= fuel ->
      annotate_get fuel t n k true = Ok (nearest m k l) /\
      (not_raw (nearest m k l) = true ->
       annotate_get_int fuel t n k true = Ok (as_int (nearest m k l)) /\
       annotate_get_string fuel t n k true = Ok (as_str (nearest m k l)) /\
       annotate_get_double fuel t n k true = Ok (as_double (nearest m k l))).
Proof. intros ops s m H. destruct (annotations ops s m H) as (t & E & _ & A). exact (ex_intro _ t (conj E A)). Qed.
Print Assumptions C46_nearest_partial.

(** A node that was removed from its parent still finds the annotations of that parent. *)
Theorem C46_refuted :
  exists ops s m t n k, nspec fam_new no_notes ops = Some (s, m) /\ nrun nheap_new ops = Ok t /\
    known s n = true /\ line s n [n] /\ nearest m k [n] = None /\ annotate_get 9 t n k true <> Ok None.
Proof.
  exists [NTree ONode; NTree ONode; NTree (OChild 0 (KNode, 1)); NPutInt 0 (s2b "k") 7; NTree (ORemove 1)].
  eexists. eexists. eexists. exists 1, (s2b "k"). split; [reflexivity|]. split; [vm_compute; reflexivity|]. split; [reflexivity|].
  split; [constructor; reflexivity|]. split; [reflexivity|]. vm_compute. discriminate.
Qed.
Print Assumptions C46_refuted.

(** three nested nodes; the key on the outer two, then stored again on the middle one, and a
    key that only the outer one has *)
Definition C46_ops : list nop :=
  [NTree ONode; NTree ONode; NTree ONode; NPutStr 0 (s2b "k") (s2b "out"); NTree (OChild 0 (KNode, 1)); NTree (OChild 1 (KContent, 4)); NTree (OChild 1 (KNode, 2));
   NPutInt 1 (s2b "k") 5; NPutStr 1 (s2b "k") (s2b "mid"); NPutDouble 0 (s2b "j") 9].
Definition C46_see (f : nheap -> res (option note)) : res (option note) := t <- nrun nheap_new C46_ops ;; f t.
Example C46_case :
  C46_see (fun t => annotate_get 9 t 2 (s2b "k") true) = Ok (Some (NStr (s2b "mid"))) /\
  C46_see (fun t => annotate_get 9 t 2 (s2b "j") true) = Ok (Some (NDouble 9)) /\
  C46_see (fun t => annotate_get 9 t 2 (s2b "k") false) = Ok None /\
  C46_see (fun t => annotate_get 9 t 2 (s2b "i") true) = Ok None /\
  always_top C46_ops 0 = true /\
  exists s m, nspec fam_new no_notes C46_ops = Some (s, m) /\ known s 2 = true /\ line s 2 [2; 1; 0] /\
    nearest m (s2b "k") [2; 1; 0] = Some (NStr (s2b "mid")).
Proof.
  repeat (split; [vm_compute; reflexivity|]). eexists. eexists. split; [reflexivity|]. split; [reflexivity|]. split; [|vm_compute; reflexivity].
  apply (line_up _ 2 1); [reflexivity|]. apply (line_up _ 1 0); [reflexivity|]. constructor. reflexivity.
Qed.
