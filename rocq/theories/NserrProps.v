(** Errors of the validation of namespaces. *)
From Verif Require Import Prelude TreeModel ParseModel XmlSpec EqModel EqSpec NsModel NsSpec NsCases NserrModel NserrSpec NserrProofs NserrCases.
Open Scope nat_scope.
Open Scope list_scope.

(** C67: for every tree, a validation that fails reports exactly one error, one that succeeds
    none, and the cursors used are released. *)
Theorem C67_once :
  forall doc doc' ok ev, nse_doc_validate doc = Ok (doc', ok, ev) ->
  (ok = true -> errors ev = []) /\ (ok = false -> exists er, errors ev = [er]) /\ cursors false ev.
Proof. exact once. Qed.
Print Assumptions C67_once.

(** The result is that of C39. *)
Theorem C67_same_result :
  forall root, ns_doc_validate root = (' (d, ok, _) <- nse_doc_validate (Some root) ;; match d with Some r => Ok (r, ok) | None => UB end).
Proof. exact agrees. Qed.
Print Assumptions C67_same_result.

(** The error is true of an element, and all elements that start before it are fine.
    Missing for the full statement: documents that use the prefix xml, or have attributes whose
    names start with xmlns without being declarations; see the refuted theorems. *)
Theorem C67_true_partial :
  forall n x, regular n -> shows n x -> ordinary x ->
  exists e ok ev, nse_doc_validate (Some (Some (elem_of n))) = Ok (Some (Some e), ok, ev) /\
    (ok = true -> ns_valid x /\ errors ev = []) /\
    (ok = false -> exists er, errors ev = [er] /\
       exists path y s, at_path [] x path y s /\ says er y s /\
       forall path' y' s', at_path [] x path' y' s' -> before path' path -> fine y' s').
Proof. exact reported. Qed.
Print Assumptions C67_true_partial.

(** The error about several default declarations is never reported. *)
Theorem C67_never :
  forall n x d ok ev, regular n -> shows n x -> nse_doc_validate (Some (Some (elem_of n))) = Ok (d, ok, ev) -> ~ In SeveralDefaults (errors ev).
Proof. exact never_several. Qed.
Print Assumptions C67_never.

(** <a xml:lang='en'/> is said to use a prefix that is not declared. *)
Theorem C67_xml_refuted :
  exists n x e, regular n /\ shows n x /\ ns_valid x /\ nse_doc_validate (Some (Some (elem_of n))) = Ok (e, false, [CursorNew; CursorFree; Error AttrPrefix]).
Proof. exact xml_blamed. Qed.
Print Assumptions C67_xml_refuted.
(** <a xmlns:p='u' xmlnsXp='v'/> is said to declare a prefix twice. *)
Theorem C67_twice_refuted :
  exists n x e, regular n /\ shows n x /\ ns_valid x /\ nse_doc_validate (Some (Some (elem_of n))) = Ok (e, false, [CursorNew; CursorFree; Error PrefixTwice]).
Proof. exact twice_blamed. Qed.
Print Assumptions C67_twice_refuted.

(** Several faults: the first one, in an element after one that is fine, is reported *)
Example C67_case : shows (root_of late) late_x /\ regular (root_of late) /\ ordinary late_x /\
  exists e, nse_doc_validate (Some (Some (elem_of (root_of late)))) = Ok (e, false, [CursorNew; CursorFree; CursorNew; CursorFree; CursorNew; CursorFree; Error NamePrefix]).
Proof. exact late_ok. Qed.
Example C67_case_attr : exists e, nse_doc_validate (Some (Some (elem_of (root_of "<a><b k='2' q:k='1'/><q:c/></a>")))) = Ok (e, false, [CursorNew; CursorFree; Error AttrPrefix]).
Proof. exact attr_case. Qed.
