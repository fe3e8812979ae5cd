(** Witnesses about namespace errors. *)
From Coq Require Import Permutation.
From Verif Require Import Prelude StrSpec AttrModel AttrProofs TreeModel ParseModel XmlSpec SoundSpec EqModel EqSpec EqProofs4 NsModel NsExec NsSpec NsProofs NsProofs2 NsCases
  NserrModel NserrSpec NserrProofs.
Open Scope nat_scope.
Open Scope list_scope.

Definition outcome (s : string) : option (bool * list event) :=
  match nse_doc_validate (Some (Some (elem_of (root_of s)))) with Ok (_, ok, ev) => Some (ok, ev) | _ => None end.
Lemma outcome_ok s ok ev : outcome s = Some (ok, ev) -> exists e, nse_doc_validate (Some (Some (elem_of (root_of s)))) = Ok (e, ok, ev).
Proof. unfold outcome. destruct (nse_doc_validate _) as [[[e ok'] ev']| |]; try discriminate. intros H. injection H as <- <-. eauto. Qed.

(** the second child has the first fault, although its attribute has one too *)
Definition late : string := "<p:a xmlns:p='u'><b p:k='1'/><q:c r:k='1'><s:e/></q:c><r:d/></p:a>".
Definition late_x : xnode :=
  XNode (str "p:a") [(str "xmlns:p", Some (str "u"))]
    [XElem (XNode (str "b") [(str "p:k", Some (str "1"))] []);
     XElem (XNode (str "q:c") [(str "r:k", Some (str "1"))] [XElem (XNode (str "s:e") [] [])]);
     XElem (XNode (str "r:d") [] [])].
Lemma late_ok : shows (root_of late) late_x /\ regular (root_of late) /\ ordinary late_x /\
  exists e, nse_doc_validate (Some (Some (elem_of (root_of late)))) = Ok (e, false, [CursorNew; CursorFree; CursorNew; CursorFree; CursorNew; CursorFree; Error NamePrefix]).
Proof.
  split; [vm_compute; show|]. split.
  { eapply (parse_regular (str late)); [apply nul_free_bool; vm_compute; reflexivity|apply cqb_ok; vm_compute; reflexivity|vm_compute; reflexivity|vm_compute; reflexivity]. }
  split.
  { repeat first [apply (proj2 (allp_unfold ordinary_here _ _ _ _)); split; [ordin|] | apply Forall_nil | apply Forall_cons]. }
  apply outcome_ok. vm_compute. reflexivity.
Qed.
Lemma attr_case : exists e, nse_doc_validate (Some (Some (elem_of (root_of "<a><b k='2' q:k='1'/><q:c/></a>")))) = Ok (e, false, [CursorNew; CursorFree; Error AttrPrefix]).
Proof. apply outcome_ok. vm_compute. reflexivity. Qed.

(** ** errors that are not true *)
Lemma xml_blamed :
  exists n x e, regular n /\ shows n x /\ ns_valid x /\ nse_doc_validate (Some (Some (elem_of n))) = Ok (e, false, [CursorNew; CursorFree; Error AttrPrefix]).
Proof.
  pose (t := "<a xml:lang='en'/>"%string). destruct (outcome_ok t _ _ ltac:(vm_compute; reflexivity)) as (e & E).
  exists (root_of t), (XNode (str "a") [(str "xml:lang", Some (str "en"))] []), e. split.
  { eapply (parse_regular (str t)); [apply nul_free_bool; vm_compute; reflexivity|apply cqb_ok; vm_compute; reflexivity|vm_compute; reflexivity|vm_compute; reflexivity]. }
  split; [vm_compute; show|]. split; [|exact E].
  apply (allp_unfold valid_here). split; [|constructor]. split.
  - intros p l H. cbn [xname] in H. prefix H.
  - names. right. intros p l H. prefix H. left. reflexivity.
Qed.
Lemma twice_blamed :
  exists n x e, regular n /\ shows n x /\ ns_valid x /\ nse_doc_validate (Some (Some (elem_of n))) = Ok (e, false, [CursorNew; CursorFree; Error PrefixTwice]).
Proof.
  pose (t := "<a xmlns:p='u' xmlnsXp='v'/>"%string). destruct (outcome_ok t _ _ ltac:(vm_compute; reflexivity)) as (e & E).
  exists (root_of t), (XNode (str "a") [(str "xmlnsXp", Some (str "v")); (str "xmlns:p", Some (str "u"))] []), e. split.
  { eapply (parse_regular (str t)); [apply nul_free_bool; vm_compute; reflexivity|apply cqb_ok; vm_compute; reflexivity|vm_compute; reflexivity|vm_compute; reflexivity]. }
  split; [vm_compute; show|]. split; [|exact E].
  apply (allp_unfold valid_here). split; [|constructor]. split.
  - intros p l H. cbn [xname] in H. prefix H.
  - names; [right; intros p l H; prefix H|left; right; exists (str "p"); reflexivity].
Qed.
