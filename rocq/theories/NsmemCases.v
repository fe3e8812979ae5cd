(** Witnesses about tables that point to attributes. *)
From Verif Require Import Prelude XmlSpec NsModel NsSpec NsProofs NsmemModel NsmemSpec NsmemProofs NsmemProofs2 NsmemProofs3 NsmemProofs4.
Open Scope nat_scope.
Open Scope list_scope.

(** a parsed root with a prefix, a default set by the program, and a child that declares
    the prefix again *)
Definition before : list call :=
  [New 0 (str "p:a"); Parsed 0 (str "xmlns:p") (str "u"); Set_ 0 (str "xmlns") (str "d");
   New 0 (str "b"); Set_ 1 (str "k") (str "1"); New 0 (str "p:c"); Set_ 2 (str "xmlns:p") (str "v"); Remove 1 (str "none")].
Definition afterwards : list call :=
  [Remove 1 (str "k"); Set_ 1 (str "xmlns") (str "w"); New 2 (str "p:e"); Set_ 3 (str "p:z") (str "1")].
Definition answers (l after : list call) (q : list (nat * bytes * bytes)) : option (bool * list bool) :=
  match run st0 l with
  | Ok s =>
    match validate s with
    | Ok (s, b) =>
      match run s after with
      | Ok s => Some (b, map (fun x => match node_is s (fst (fst x)) (snd (fst x)) (snd x) with Ok r => r | _ => false end) q)
      | _ => None
      end
    | _ => None
    end
  | _ => None
  end.
Lemma no_like n : (exists r, n = str "xmlns" ++ r) -> is_decl n -> ~ lookalike n.
Proof. intros _ D [_ N]. contradiction. Qed.
Ltac usual_tac :=
  cbn [usual];
  repeat match goal with
  | |- _ /\ _ => split
  | |- True => exact Logic.I
  | |- ~ uses_xml _ => let H := fresh in intros [? [H _]]; discriminate H
  | |- ~ lookalike _ => let H := fresh in let N := fresh in intros [[? H] N];
      first [discriminate H | apply N; left; reflexivity | apply N; right; eexists; reflexivity]
  end.
Lemma before_fine : Forall keeps before /\ Forall usual before /\ all_calm (edits [] before) afterwards.
Proof.
  split; [|split].
  - repeat constructor. intros [r H]. discriminate.
  - unfold before. repeat (constructor; [usual_tac|]). constructor.
  - cbn. repeat split; try (intros [r H]; discriminate). intros p m ats E I L. injection E as <- <- <-. discriminate.
Qed.
Lemma before_answers : answers before afterwards
  [(0, str "u", str "a"); (0, str "v", str "a"); (1, str "d", str "b"); (1, str "w", str "b"); (2, str "v", str "c"); (3, str "v", str "e"); (3, str "u", str "e")] =
  Some (true, [true; false; true; false; true; true; false]).
Proof. vm_compute. reflexivity. Qed.

Lemma scope_one (n : bytes) ats s : scope_of [(None, n, ats)] (Some 0) s -> s = [ats].
Proof. intro H. apply (scope_det _ _ _ H). econstructor; [reflexivity|constructor]. Qed.
(** ** the declaration is removed *)
Definition built : list call := [New 0 (str "p:a"); Set_ 0 (str "xmlns:p") (str "u")].
Definition parsed : list call := [New 0 (str "p:a"); Parsed 0 (str "xmlns:p") (str "u")].
Definition gone : list call := [Remove 0 (str "xmlns:p")].
Definition the (r : res st) : st := match r with Ok s => s | _ => st0 end.
Definition the_v (r : res (st * bool)) : st := match r with Ok (s, _) => s | _ => st0 end.
Lemma removed_ub : exists l after s s' s2, Forall usual l /\ run st0 l = Ok s /\ validate s = Ok (s', true) /\ run s' after = Ok s2 /\
  node_is s2 0 (str "u") (str "a") = UB /\ validate s2 = UB.
Proof.
  pose (s := the (run st0 built)). pose (s' := the_v (validate s)). pose (s2 := the (run s' gone)).
  exists built, gone, s, s', s2. split; [unfold built; repeat (constructor; [usual_tac|]); constructor|]. repeat split; vm_compute; reflexivity.
Qed.
Lemma removed_stale : exists l after s s' s2 s3, Forall usual l /\ run st0 l = Ok s /\ validate s = Ok (s', true) /\ run s' after = Ok s2 /\
  node_is s2 0 (str "u") (str "a") = Ok true /\ ~ is_named (edits [] (l ++ after)) 0 (str "u") (str "a") /\
  validate s2 = Ok (s3, true) /\ ~ valid (edits [] (l ++ after)).
Proof.
  pose (s := the (run st0 parsed)). pose (s' := the_v (validate s)). pose (s2 := the (run s' gone)). pose (s3 := the_v (validate s2)).
  exists parsed, gone, s, s', s2, s3. split; [unfold parsed; repeat (constructor; [usual_tac|]); constructor|].
  split; [vm_compute; reflexivity|]. split; [vm_compute; reflexivity|]. split; [vm_compute; reflexivity|]. split; [vm_compute; reflexivity|].
  change (edits [] (parsed ++ gone)) with ([(None, str "p:a", [])] : pdoc).
  split; [|split; [vm_compute; reflexivity|]].
  - intros (p & n & ats & sc & E & S & [(q & Sp & N)|(_ & _ & N)]); apply scope_one in S; subst sc; inversion N as [? ? ? I|? ? ? I N']; subst; try contradiction; inversion N'.
  - intro H. destruct (H 0 None (str "p:a") [] [[]] eq_refl) as [A _]; [econstructor; [reflexivity|constructor]|].
    destruct (A (str "p") (str "a")) as [B|B]; [split; [reflexivity|intros [X|[]]; discriminate]|discriminate|]. inversion B as [? ? X|? ? X]; subst; [contradiction|inversion X].
Qed.
(** ** a declaration is added *)
Lemma added_unseen : exists l after s s' s2, Forall usual l /\ run st0 l = Ok s /\ validate s = Ok (s', true) /\ run s' after = Ok s2 /\ Forall keeps after /\
  node_is s2 0 (str "w") (str "a") = Ok false /\ is_named (edits [] (l ++ after)) 0 (str "w") (str "a").
Proof.
  pose (l := [New 0 (str "a")]). pose (after := [Set_ 0 (str "xmlns") (str "w")]).
  pose (s := the (run st0 l)). pose (s' := the_v (validate s)). pose (s2 := the (run s' after)).
  exists l, after, s, s', s2. split; [unfold l; repeat (constructor; [usual_tac|]); constructor|].
  split; [vm_compute; reflexivity|]. split; [vm_compute; reflexivity|]. split; [vm_compute; reflexivity|]. split; [repeat constructor|]. split; [vm_compute; reflexivity|].
  exists None, (str "a"), [(str "xmlns", Some (str "w"))], [[(str "xmlns", Some (str "w"))]]. split; [reflexivity|]. split; [econstructor; [reflexivity|constructor]|].
  right. split; [intros [X|[]]; discriminate|]. split; [reflexivity|]. constructor. left. reflexivity.
Qed.
(** ** eleven attributes, and one that is no declaration is removed *)
Definition many : list call :=
  New 0 (str "p:a") :: map (fun k => Set_ 0 (str k) (str "1")) ["a"; "b"; "c"; "d"; "e"; "f"; "g"; "h"; "i"; "j"]%string ++ [Set_ 0 (str "xmlns:p") (str "u")].
Lemma eleven_ub : exists l after s s' s2, Forall usual l /\ run st0 l = Ok s /\ validate s = Ok (s', true) /\ run s' after = Ok s2 /\ Forall keeps after /\
  node_is s2 0 (str "u") (str "a") = UB /\ is_named (edits [] (l ++ after)) 0 (str "u") (str "a").
Proof.
  pose (after := [Remove 0 (str "c")]).
  pose (s := the (run st0 many)). pose (s' := the_v (validate s)). pose (s2 := the (run s' after)).
  exists many, after, s, s', s2. split; [unfold many; cbn [map app]; repeat (constructor; [usual_tac|]); constructor|].
  split; [vm_compute; reflexivity|]. split; [vm_compute; reflexivity|]. split; [vm_compute; reflexivity|].
  split; [constructor; [intros [r H]; discriminate|constructor]|]. split; [vm_compute; reflexivity|].
  eexists None, (str "p:a"), _, _. split; [reflexivity|]. split; [econstructor; [reflexivity|constructor]|].
  left. exists (str "p"). split; [split; [reflexivity|intros [X|[]]; discriminate]|]. constructor. left. reflexivity.
Qed.
