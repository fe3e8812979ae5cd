(** Cases that meet the hypotheses of the theorems about the command line. *)
From Verif Require Import Prelude ExargModel ExargSpec ExargExec ExargProofs ExargProofs2 KtoolSpec KtoolProofs.

Definition line : list bytes :=
  [s2b "--input"; s2b "a/b.xml"; s2b "-e"; s2b "notes"; s2b "--p"; s2b "code"; s2b "-o"; s2b "/x"].
Definition line_given : list (nat * option bytes) :=
  [(1, Some (s2b "a/b.xml")); (4, None); (6, Some (s2b "code")); (2, Some (s2b "/x"))].

Ltac is_plain := match goal with |- plain_in Dashes ?a => exact (proj2 (argument_false MUnix a MUnix eq_refl)) end.
Ltac is_meant := refine (proj2_sig (exist (fun d => means _ _ _ d) _ _));
  split; [reflexivity|]; split; [vm_compute; auto|];
  let j := fresh in let e := fresh in let L := fresh in let E := fresh in
  intros j e L E; repeat (destruct j as [|j]; [injection E as <-; vm_compute; intuition discriminate|]); lia.
Ltac not_asked := rewrite asks_iff; vm_compute; discriminate.

Lemma line_says : says knife_table Any line line_given [s2b "notes"].
Proof.
  unfold line, line_given.
  eapply says_value; [now apply two_dashes | not_asked | is_meant | discriminate | is_plain |].
  eapply says_flag; [apply (one_dash _ "e"%char); discriminate | not_asked | is_meant | reflexivity |].
  apply says_free; [is_plain|].
  eapply says_value; [now apply two_dashes | not_asked | is_meant | discriminate | is_plain |].
  eapply says_value; [apply (one_dash _ "o"%char); discriminate | not_asked | is_meant | discriminate | is_plain |].
  constructor.
Qed.

Lemma line_once : NoDup (map fst line_given).
Proof. repeat constructor; cbn; intuition discriminate. Qed.
Lemma line_supported : supported knife_table line_given.
Proof.
  intros i d j E I J. cbn in I. destruct I as [<-|[<-|[<-|[<-|[]]]]]; injection E as <-; cbn in *; intuition (subst; auto).
Qed.
Lemma line_compatible : ~ (gives line_given 4 /\ gives line_given 9).
Proof. unfold gives. cbn. intuition discriminate. Qed.

(** a world in which everything is there *)
Definition good : world :=
  mkWorld (fun _ => true) (fun f => Z.of_nat (length f)) (fun _ => true) (fun _ => true) (fun _ => true).

Lemma C75_case : exists st', parse knife_state (s2b "axl-knife" :: line) = Ok (Goes st') /\
  x_params st' = [s2b "notes"] /\ is_defined st' (s2b "htmlize") = true /\ is_defined st' (s2b "n") = false /\
  get_string st' (s2b "pre-class") = Goes (Some (s2b "code")).
Proof. eexists. split; [vm_compute; reflexivity|]. vm_compute. auto. Qed.

Lemma C76_case : main 6 good (s2b "axl-knife" :: line) =
  Ok (mkEnded [DocLoaded (s2b "a/b.xml"); Htmlized (s2b "a/b.xml") (Some (s2b "/x"))] 0).
Proof. vm_compute. reflexivity. Qed.

(** the same words as an option of another style are not options *)
Lemma C75_style : parse knife_state [s2b "k"; s2b "-c"; s2b "-i"; s2b "/file"] <> parse knife_state [s2b "k"; s2b "-c"; s2b "-i"; s2b "--file"].
Proof. vm_compute. discriminate. Qed.

Lemma C75_help : parse knife_state [s2b "k"; s2b "-c"; s2b "--helpme"] = Ok (Ends Help).
Proof. vm_compute. reflexivity. Qed.
Lemma C75_status : parse knife_state [s2b "k"; s2b "-c"] = Ok (Ends (Depends (s2b "check-xml") (s2b "input"))).
Proof. vm_compute. reflexivity. Qed.

(** both actions *)
Definition both : list bytes := [s2b "--htmlize"; s2b "--dtd-to-c"; s2b "--input"; s2b "a.dtd"].
Definition both_given : list (nat * option bytes) := [(4, None); (9, None); (1, Some (s2b "a.dtd"))].
Lemma both_says : says knife_table Any both both_given [].
Proof.
  unfold both, both_given.
  eapply says_flag; [now apply two_dashes | not_asked | is_meant | reflexivity |].
  eapply says_flag; [now apply two_dashes | not_asked | is_meant | reflexivity |].
  eapply says_value; [now apply two_dashes | not_asked | is_meant | discriminate | is_plain |].
  constructor.
Qed.

Lemma exclusion_goes : exists prog st args g f st', do_steps start prog = Goes st /\ says (decls st) Any args g f /\
  ~ compatible (decls st) g /\ parse st (s2b "k" :: args) = Ok (Goes st').
Proof.
  exists knife_steps, knife_state, both, both_given, []. eexists. split; [exact knife_starts|].
  rewrite knife_decls. split; [exact both_says|]. split; [|vm_compute; reflexivity].
  rewrite knife_compatible. unfold gives. cbn. tauto.
Qed.

Lemma exclusion_faults : exists w args g f, says knife_table Any args g f /\ NoDup (map fst g) /\ supported knife_table g /\
  main 6 w (s2b "axl-knife" :: args) = UB.
Proof.
  exists good, both, both_given, []. split; [exact both_says|]. split; [repeat constructor; cbn; intuition discriminate|].
  split; [|vm_compute; reflexivity].
  intros i d j E I J. cbn in I. destruct I as [<-|[<-|[<-|[]]]]; injection E as <-; cbn in *; intuition (subst; auto).
Qed.

(** a dependency is not checked once an exclusion has been found *)
Definition three : list step :=
  [ Install (s2b "aa") None ANone; Install (s2b "bb") None ANone; Install (s2b "cc") None ANone;
    Exclusion (s2b "aa") (s2b "bb"); Dependency (s2b "bb") (s2b "cc") ].
Lemma dependency_goes : exists prog st args g f st', do_steps start prog = Goes st /\ says (decls st) Any args g f /\
  NoDup (map fst g) /\ ~ supported (decls st) g /\ parse st (s2b "k" :: args) = Ok (Goes st').
Proof.
  exists three. eexists. exists [s2b "--aa"; s2b "--bb"], [(0, None); (1, None)], []. eexists.
  split; [vm_compute; reflexivity|]. split; [|split; [|split; [|vm_compute; reflexivity]]].
  - eapply says_flag; [now apply two_dashes | not_asked | is_meant | reflexivity |].
    eapply says_flag; [now apply two_dashes | not_asked | is_meant | reflexivity |]. constructor.
  - repeat constructor; cbn; intuition discriminate.
  - intro P. specialize (P 1 _ 2 eq_refl). cbn in P. assert (Q : 0 = 2 \/ 1 = 2 \/ False) by (apply P; auto). intuition discriminate.
Qed.

(** two options with the same name *)
Lemma conflict_goes : exists prog st i j d e w, do_steps start prog = Goes st /\ i <> j /\
  nth_error (decls st) i = Some d /\ nth_error (decls st) j = Some e /\ In w (d_names d) /\ In w (d_names e).
Proof.
  exists [Install (s2b "i") None ANone; Install (s2b "input") (Some (s2b "i")) AString]. eexists.
  exists 0, 1. eexists. eexists. exists (s2b "i").
  split; [vm_compute; reflexivity|]. split; [discriminate|]. split; [reflexivity|]. split; [reflexivity|]. vm_compute. auto.
Qed.

(** an option that cannot be given *)
Lemma help_hides : exists prog st w i d, do_steps start prog = Goes st /\ means (decls st) w i d /\
  forall s a s', option_in s a w s' -> forall e rest, s = Any -> exists x, parse st (e :: a :: rest) = Ok (Ends x) /\ status x = 0%Z.
Proof.
  exists [Install (s2b "usage-file") None ANone]. eexists. exists (s2b "usage-file"), 0. eexists.
  split; [vm_compute; reflexivity|]. split.
  { split; [reflexivity|]. split; [vm_compute; auto | intros j e L; lia]. }
  intros s a s' O e rest ->. exists Usage. split; [|reflexivity].
  change Any with (style_of MNone) in O. destruct (argument_in _ _ _ _ O) as (m & I & G & _).
  unfold parse. cbn [parse_loop x_mode]. rewrite I. cbn [negb]. rewrite G. reflexivity.
Qed.

Lemma status_lost : exists w args f r, main 6 w (s2b "axl-knife" :: args) = Ok r /\ In (DocFailed f) (e_events r) /\ e_status r = 0%Z.
Proof.
  exists (mkWorld (fun _ => true) (fun _ => 0%Z) (fun _ => false) (fun _ => true) (fun _ => true)),
    [s2b "--check-xml"; s2b "-i"; s2b "bad.xml"], (s2b "bad.xml").
  eexists. split; [vm_compute; reflexivity|]. cbn. auto.
Qed.

Definition counted : list step := [Install (s2b "times") (Some (s2b "t")) AInt].
Lemma C75_number : exists st st', do_steps start counted = Goes st /\
  parse st [s2b "k"; s2b "-t"; s2b "1207"] = Ok (Goes st') /\ get_int st' (s2b "times") = Goes 1207%Z.
Proof. eexists. eexists. split; [vm_compute; reflexivity|]. split; vm_compute; reflexivity. Qed.
Lemma C75_numeral : numeral (s2b "1207") 1207.
Proof.
  apply (numeral_more (s2b "120") 120 7); [|lia]. apply (numeral_more (s2b "12") 12 0); [|lia].
  apply (numeral_more (s2b "1") 1 2); [|lia]. apply (numeral_one 1). lia.
Qed.
Lemma negative_ends : exists prog st w i d, do_steps start prog = Goes st /\ means (decls st) w i d /\ d_value d = Number /\
  (exists x, parse st [s2b "k"; s2b "--times"; s2b "-5"] = Ok (Ends x)) /\
  (exists st', parse st [s2b "k"; s2b "--times"; s2b "-50"] = Ok (Goes st') /\ get_int st' w = Goes (-50)%Z).
Proof.
  exists counted. eexists. exists (s2b "times"), 0. eexists. split; [vm_compute; reflexivity|].
  split; [split; [reflexivity|]; split; [vm_compute; auto | intros j e L; lia]|]. split; [reflexivity|].
  split; [eexists; vm_compute; reflexivity|]. eexists. split; vm_compute; reflexivity.
Qed.

Lemma C75_wrap : wrap (s2b "Takes an input xml  document") 10 (s2b "   ") =
  [s2b "Takes an input"; s2b "   xml  document"].
Proof. vm_compute. reflexivity. Qed.

Lemma C75_relation : exists st st', do_steps start [Install (s2b "aa") None ANone; Install (s2b "bb") (Some (s2b "b")) ANone] = Goes st /\
  do_step st (Dependency (s2b "aa") (s2b "b")) = Goes st' /\ map d_needs (decls st') = [[1]; []].
Proof. eexists. eexists. split; [vm_compute; reflexivity|]. split; vm_compute; reflexivity. Qed.
