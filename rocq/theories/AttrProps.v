(** C21 and C48: the attributes of an element. *)
From Coq Require Import Permutation.
From Verif Require Import Prelude HashModel HashSpec HashStrProofs StrModel StrSpec EscModel EscSpec EscProofs AttrModel AttrSpec AttrExec AttrProofs.
Open Scope Z_scope.

(** ** C21 *)

(** Any sequence of settings, removals and queries answers like the map in which
    the first value set is kept, whatever the number of attributes, when names hold
    no special character and either no value holds one or no removal goes from
    eleven to ten attributes.  Missing: see the two refutations. *)
Theorem C21_attributes_map_partial :
  forall ops, Forall good_op ops -> (Forall clean_op ops \/ ~ shrinks [] ops) ->
  exists n answered, aexec_all no_attrs ops = Ok (n, answered) /\ Forall2 answers (aspec_all [] ops) answered.
Proof.
  intros ops G H. destruct (aexec_all_ok ops no_attrs [] arep_none (Forall_nil _) G) as (n & l & E & A & _).
  - destruct H as [H|H]; [left; split; [exact H|constructor]|right; exact H].
  - exists n, l. split; assumption.
Qed.
Print Assumptions C21_attributes_map_partial.

(** Setting as the parser does (no escaping) never replaces a value, tells whether
    the name was new, and gives the value back as it was. *)
Theorem C21_set_unescaped :
  forall ops name value, Forall good_op ops -> nul_free name ->
  exists n answered present n', aexec_all no_attrs ops = Ok (n, answered) /\ has_attribute n name = Ok present /\
    set_attribute_core n name value true = Ok (n', negb present) /\
    (if present then n' = n else get_attribute_value n' name = Ok value).
Proof.
  intros ops name value G Hn. destruct (reach_any ops no_attrs [] arep_none (Forall_nil _) G) as (n & l & m & E & R & _).
  destruct (set_core_ok n m name value true R Hn) as (n' & E' & R').
  pose proof (has_attribute_ok n m name R Hn) as Hh.
  exists n, l. eexists. exists n'. split; [exact E|]. split; [exact Hh|]. split.
  - rewrite E'. destruct (a_find m name); reflexivity.
  - unfold a_add in R'. destruct (a_find m name) eqn:Ef.
    + unfold set_attribute_core in E'. rewrite Hh in E'. cbn [bind] in E'. destruct (is_null (a_store n)).
      * injection E' as _ X. discriminate.
      * destruct (a_num n <? 10); injection E' as <-; reflexivity.
    + rewrite (get_attribute_ok n' _ name R' Hn). unfold a_find. cbn [find fst]. rewrite bytes_eqb_refl. reflexivity.
Qed.
Print Assumptions C21_set_unescaped.

(** Removing one of eleven attributes escapes the values of the others a second time. *)
Definition eleven : list aop :=
  ASet (s2b "x") (s2b "a<b") :: map (fun c => ASet [c] (s2b "v")) (s2b "abcdefghij").
Theorem C21_shrink_refuted :
  exists ops n answered,
    Forall good_op ops /\ aexec_all no_attrs ops = Ok (n, answered) /\
    ~ Forall2 answers (aspec_all [] ops) answered.
Proof.
  exists (eleven ++ [ARemove (s2b "a"); AGet (s2b "x")]). eexists. eexists. split.
  { apply Forall_forall. intros o I.
    assert (X : forall c, existsb (Ascii.eqb c) ("000"%char :: s2b "<>&'" ++ ["034"%char]) = false -> good_name [c]).
    { intros c H. split; [discriminate|]. split.
      - apply nul_free_lit. simpl. simpl in H. change NUL with "000"%char. destruct (Ascii.eqb c "000"); [discriminate|reflexivity].
      - intros c' [<-|[]] J. cbn [existsb] in H. apply orb_false_iff in H. destruct H as [_ H].
        rewrite <- not_true_iff_false in H. apply H. apply existsb_exists. exists c. split; [exact J|apply Ascii.eqb_refl]. }
    vm_compute in I. repeat (destruct I as [<-|I]; [cbn [good_op]; (apply X; reflexivity) || (split; [apply X|apply nul_free_lit]; reflexivity)|]).
    contradiction. }
  split; [vm_compute; reflexivity|].
  intro F. pose proof (Forall2_at answers 12%nat _ _ (AVal (Some (s2b "a<b"))) (AVal (Some (s2b "a&amp;lt;b"))) F) as A.
  destruct A as (_ & _ & (b & E & H) & _); [vm_compute; reflexivity|vm_compute; reflexivity|]. vm_compute in E. injection E as <-.
  destruct H as [_ [t H]]. vm_compute in H. discriminate.
Qed.
Print Assumptions C21_shrink_refuted.

(** A name with a special character is stored under another name. *)
Theorem C21_name_refuted :
  exists name value n, nul_free name /\ nul_free value /\ set_attribute no_attrs name value = Ok n /\
    has_attribute n name = Ok false /\ num_attributes n = Ok 1.
Proof.
  exists (s2b "a<b"), (s2b "v"). eexists. split; [apply nul_free_lit; reflexivity|].
  split; [apply nul_free_lit; reflexivity|]. split; [vm_compute; reflexivity|]. split; vm_compute; reflexivity.
Qed.
Print Assumptions C21_name_refuted.

Example C21_case :
  aspec_all [] (eleven ++ [ANum; AGet (s2b "x"); ASet (s2b "x") (s2b "y"); ASet (s2b "k") (s2b "w"); ARemove (s2b "a"); ANum; AHas (s2b "a"); AGet (s2b "x")]) =
    repeat AUnit 11 ++ [AInt 11; AVal (Some (s2b "a<b")); AUnit; AUnit; AUnit; AInt 11; ABool false; AVal (Some (s2b "a<b"))] /\
  exists n, aexec_all no_attrs (eleven ++ [ANum; AGet (s2b "x"); ASet (s2b "x") (s2b "y"); ASet (s2b "k") (s2b "w"); ARemove (s2b "a"); ANum; AHas (s2b "a"); AGet (s2b "x")]) =
    Ok (n, repeat AUnit 11 ++ [AInt 11; AVal (Some (s2b "a&lt;b")); AUnit; AUnit; AUnit; AInt 11; ABool false; AVal (Some (s2b "a&lt;b"))]).
Proof. split; [vm_compute; reflexivity|]. eexists. vm_compute. reflexivity. Qed.

(** ** C48 *)

(** After any sequence of settings and removals there is an order of the attributes
    present, each name once, that both axl_node_attr_foreach (up to the place where
    the handler stops it) and a cursor walk follow; it holds exactly the names that
    has_attribute knows, each with the value get_attribute_value returns, and as
    many as num_attributes says. *)
Theorem C48_enumeration :
  forall ops, Forall good_op ops ->
  exists n ans order, aexec_all no_attrs ops = Ok (n, ans) /\
    NoDup (map fst order) /\
    (forall name, nul_free name -> has_attribute n name = Ok (existsb (fun p => bytes_eqb (fst p) name) order)) /\
    (forall name v, In (name, v) order -> get_attribute_value n name = Ok v) /\
    num_attributes n = Ok (Z.of_nat (length order)) /\
    (forall stop, attr_foreach stop n = Ok (take_until stop order)) /\
    exists c, attr_cursor_new n = Ok c /\ attr_walk (S (length order)) n c = Ok order.
Proof. exact C48_lemma. Qed.
Print Assumptions C48_enumeration.

(** Asking a cursor over an element without attributes whether there is a next one
    reads through NULL. *)
Theorem C48_has_next_refuted :
  exists n c, n = no_attrs /\ attr_cursor_new n = Ok c /\ attr_cursor_has_next n c = UB.
Proof. exists no_attrs. eexists. split; [reflexivity|]. split; reflexivity. Qed.
Print Assumptions C48_has_next_refuted.

Example C48_case : exists n ans c, aexec_all no_attrs (eleven ++ [ARemove (s2b "x"); ARemove (s2b "a")]) = Ok (n, ans) /\
  attr_cursor_new n = Ok c /\
  attr_walk 10 n c = attr_foreach (fun _ _ => false) n /\
  attr_walk 10 n c = Ok (map (fun k => ([k], Some (s2b "v"))) (s2b "bjihgfedc")).
Proof. eexists. eexists. eexists. split; [vm_compute; reflexivity|]. split; [vm_compute; reflexivity|]. split; vm_compute; reflexivity. Qed.
