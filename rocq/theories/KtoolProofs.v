(** Lemmas about what axl-knife does. *)
From Verif Require Import Prelude ExargModel ExargSpec ExargExec ExargProofs ExargProofs2 KtoolSpec.

Definition knife_state : exarg := Eval vm_compute in
  match do_steps start knife_steps with Goes st => st | Ends _ => start end.

Lemma knife_starts : do_steps start knife_steps = Goes knife_state.
Proof. vm_compute. reflexivity. Qed.
Lemma knife_decls : decls knife_state = knife_table.
Proof. vm_compute. reflexivity. Qed.
Lemma knife_nofree : x_nofree knife_state = false.
Proof. reflexivity. Qed.
Lemma at_version : lookup (x_opts knife_state) (s2b "version") = Some 0.
Proof. vm_compute. reflexivity. Qed.
Lemma at_input : lookup (x_opts knife_state) (s2b "input") = Some 1.
Proof. vm_compute. reflexivity. Qed.
Lemma at_output : lookup (x_opts knife_state) (s2b "output") = Some 2.
Proof. vm_compute. reflexivity. Qed.
Lemma at_ifnewer : lookup (x_opts knife_state) (s2b "ifnewer") = Some 3.
Proof. vm_compute. reflexivity. Qed.
Lemma at_htmlize : lookup (x_opts knife_state) (s2b "htmlize") = Some 4.
Proof. vm_compute. reflexivity. Qed.
Lemma at_dtd_to_c : lookup (x_opts knife_state) (s2b "dtd-to-c") = Some 9.
Proof. vm_compute. reflexivity. Qed.
Lemma at_check_xml : lookup (x_opts knife_state) (s2b "check-xml") = Some 10.
Proof. vm_compute. reflexivity. Qed.
Lemma text_input d : nth_error knife_table 1 = Some d -> d_value d = Text.
Proof. intro E. now injection E as <-. Qed.
Lemma knife_complete g : complete knife_table g.
Proof.
  intros i d E N. do 11 (destruct i as [|i]; [injection E as <-; discriminate|]). destruct i; discriminate.
Qed.

Lemma knife_compatible g : compatible knife_table g <-> ~ (gives g 4 /\ gives g 9).
Proof.
  split.
  - intros C [A B]. apply (C 4 _ 9 eq_refl A); [now left | exact B].
  - intros N i d j E I J K. apply N.
    do 11 (destruct i as [|i]; [injection E as <-; cbn in J; solve [destruct J | destruct J as [<-|[]]; split; assumption]|]).
    destruct i; discriminate.
Qed.

Lemma functional (g : list (nat * option bytes)) i v x : NoDup (map fst g) -> In (i, v) g -> In (i, x) g -> v = x.
Proof.
  intros D I J. induction g as [|[k y] g IH]; [destruct I|]. cbn in D. apply NoDup_cons_iff in D as [N D].
  destruct I as [I|I], J as [J|J].
  - congruence.
  - injection I as -> ->. destruct N. now apply (in_map fst) in J.
  - injection J as -> ->. destruct N. now apply (in_map fst) in I.
  - now apply IH.
Qed.

Section Given.
Variable args : list bytes.
Variable g : list (nat * option bytes).
Variable f : list bytes.
Variable m : mode.
Variable t : list (bytes * bytes).
Hypothesis S : says knife_table Any args g f.
Hypothesis D : NoDup (map fst g).
Let st := noted knife_state g f m t.

Lemma bounded i : In i (map fst g) -> i < length (x_opts knife_state).
Proof.
  intro I. rewrite <- (map_length decl_of). change (map decl_of (x_opts knife_state)) with (decls knife_state).
  rewrite knife_decls. exact (says_range _ _ _ _ _ S i I).
Qed.

Lemma knife_ready : ready knife_state.
Proof. exact (start_ready _ _ knife_starts). Qed.

Lemma defined_at (n : string) i d : lookup (x_opts knife_state) (s2b n) = Some i -> nth_error knife_table i = Some d ->
  (is_defined st (s2b n) = true <-> gives g i).
Proof.
  intros L E. apply lookup_some in L as [d' M]. change (map decl_of (x_opts knife_state)) with (decls knife_state) in M.
  apply (answers_defined knife_state g f m t (s2b n) i d' knife_ready D bounded M).
Qed.

Lemma defined_cases (n : string) i d : lookup (x_opts knife_state) (s2b n) = Some i -> nth_error knife_table i = Some d ->
  (is_defined st (s2b n) = true /\ gives g i) \/ (is_defined st (s2b n) = false /\ ~ gives g i).
Proof.
  intros L E. pose proof (defined_at n i d L E) as Q. destruct (is_defined st (s2b n)); [left; tauto|].
  right. split; [reflexivity|]. intro I. apply Q in I. discriminate.
Qed.

Lemma value_at i : gives g i -> (forall d, nth_error knife_table i = Some d -> d_value d = Text) -> exists v, In (i, Some v) g.
Proof.
  intros I T. apply in_map_iff in I as ([j v] & Q & I). cbn in Q. subst j.
  destruct (nth_error knife_table i) as [d|] eqn:E.
  - pose proof (says_kinds _ _ _ _ _ S i v d I E) as K. destruct v as [v|]; [now exists v|].
    rewrite (T d eq_refl) in K. destruct K as [K _]. now specialize (K eq_refl).
  - apply nth_error_None in E. apply (in_map fst) in I. apply (says_range _ _ _ _ _ S) in I. cbn in E, I. lia.
Qed.

Lemma named (n : string) i v : lookup (x_opts knife_state) (s2b n) = Some i ->
  (forall d, nth_error knife_table i = Some d -> d_value d = Text) -> In (i, Some v) g -> file_name st (s2b n) = Ok v.
Proof.
  intros L T I. apply lookup_some in L as [d M]. change (map decl_of (x_opts knife_state)) with (decls knife_state) in M.
  assert (T' : d_value d = Text) by (apply T; exact (proj1 M)).
  apply (answers_string knife_state args g f m t (s2b n) i d v knife_ready D S M T') in I.
  unfold file_name. fold st in I. now rewrite I.
Qed.

Lemma output_written w k : exists e, output w st k = Ok [e] /\ written w g k e.
Proof.
  unfold output. destruct (defined_cases "output" 2 _ at_output eq_refl) as [[-> G]|[-> G]].
  - destruct (value_at 2 G) as [o O]; [intros d E; now injection E as <-|].
    rewrite (named "output" 2 o at_output); [|intros d E; now injection E as <- | exact O]. cbn [bind].
    destruct (w_writes w o) eqn:W; eexists; (split; [reflexivity|]); econstructor; eassumption.
  - eexists. split; [reflexivity|]. now constructor.
Qed.

Lemma needs i j d : supported knife_table g -> nth_error knife_table i = Some d -> gives g i -> In j (d_needs d) -> gives g j.
Proof. intros P E G J. exact (P i d j E G J). Qed.

Lemma act_does vlen w : supported knife_table g -> ~ (gives g 4 /\ gives g 9) ->
  exists r, act vlen w st = Ok r /\ does w g (e_events r) /\
    ((gives g 0 /\ e_status r = vlen) \/ (~ gives g 0 /\ e_status r = 0%Z)).
Proof.
  intros P X. unfold act.
  destruct (defined_cases "version" 0 _ at_version eq_refl) as [[-> G0]|[-> G0]].
  { eexists. split; [reflexivity|]. split; [now constructor | left; auto]. }
  assert (Q : exists b, up_to_date w st = Ok b /\
    ((b = true /\ gives g 3 /\ exists i o, In (1, Some i) g /\ In (2, Some o) g /\ current w i o) \/
     (b = false /\ (gives g 3 -> forall i o, In (1, Some i) g -> In (2, Some o) g -> ~ current w i o)))).
  { unfold up_to_date. destruct (defined_cases "ifnewer" 3 _ at_ifnewer eq_refl) as [[-> G3]|[-> G3]].
    2: { exists false. split; [reflexivity|]. right. split; [reflexivity | tauto]. }
    destruct (value_at 1) as [i I]; [apply (needs 3 1 _ P eq_refl G3); cbn; auto | intros d E; now injection E as <-|].
    destruct (value_at 2) as [o O]; [apply (needs 3 2 _ P eq_refl G3); cbn; auto | intros d E; now injection E as <-|].
    rewrite (named "input" 1 i at_input); [|intros d E; now injection E as <- | exact I]. cbn [bind].
    rewrite (named "output" 2 o at_output); [|intros d E; now injection E as <- | exact O]. cbn [bind].
    eexists. split; [reflexivity|].
    destruct (w_exists w i && w_exists w o && negb (w_time w o <? w_time w i)%Z) eqn:C.
    - left. split; [reflexivity|]. split; [exact G3|]. exists i, o. split; [exact I|]. split; [exact O|].
      apply andb_true_iff in C as [C C3]. apply andb_true_iff in C as [C1 C2]. apply negb_true_iff, Z.ltb_ge in C3. repeat split; assumption.
    - right. split; [reflexivity|]. intros _ i' o' I' O' (C1 & C2 & C3).
      pose proof (functional g 1 _ _ D I I') as Q1. pose proof (functional g 2 _ _ D O O') as Q2.
      injection Q1 as <-. injection Q2 as <-. rewrite C1, C2 in C. cbn in C. apply negb_false_iff, Z.ltb_lt in C. lia. }
  destruct Q as (b & -> & [(-> & G3 & i & o & I & O & C)|(-> & NC)]); cbn [bind].
  { eexists. split; [reflexivity|]. split; [eapply does_nothing; eassumption | right; auto]. }
  destruct (defined_cases "htmlize" 4 _ at_htmlize eq_refl) as [[-> G4]|[-> G4]];
  destruct (defined_cases "check-xml" 10 _ at_check_xml eq_refl) as [[-> G10]|[-> G10]];
  destruct (defined_cases "dtd-to-c" 9 _ at_dtd_to_c eq_refl) as [[-> G9]|[-> G9]]; cbn [negb andb bind]; try tauto;
  try (eexists; split; [reflexivity|]; split; [now constructor | right; auto]; fail).
  all: assert (GI : gives g 1) by (first [apply (needs 4 1 _ P eq_refl G4) | apply (needs 9 1 _ P eq_refl G9) | apply (needs 10 1 _ P eq_refl G10)]; cbn; auto).
  all: destruct (value_at 1 GI) as [i I]; [intros d E; now injection E as <-|].
  all: pose proof (named "input" 1 i at_input text_input I) as NI.
  all: unfold dtd_to_c, htmlize; try rewrite NI; cbn [bind].
  all: try (destruct (defined_cases "input" 1 _ at_input eq_refl) as [[-> _]|[_ Z]]; [|tauto]; try rewrite NI; cbn [bind]).
  all: try (destruct (w_doc w i) eqn:WD; cbn [bind of_option]).
  all: try (destruct (w_dtd w i) eqn:WT; cbn [bind]).
  all: try (destruct (output_written w (Htmlized i)) as (e & -> & W); cbn [bind]).
  all: try (destruct (output_written w (Header i)) as (e & -> & W'); cbn [bind]).
  all: eexists; (split; [reflexivity|]); (split; [|right; auto]); eapply does_action; try eassumption; try tauto; eauto.
  all: cbn [e_events app].
  all: constructor; assumption.
Qed.
End Given.

Lemma main_act vlen w e args : main vlen w (e :: args) =
  (o <- parse knife_state (e :: args) ;;
   match o with Ends x => Ok (mkEnded [] (status x)) | Goes st => act vlen w st end).
Proof. unfold main. now rewrite knife_starts. Qed.

Lemma main_runs vlen w e args g f : says knife_table Any args g f -> NoDup (map fst g) ->
  supported knife_table g -> ~ (gives g 4 /\ gives g 9) ->
  exists r, main vlen w (e :: args) = Ok r /\ does w g (e_events r) /\
    ((gives g 0 /\ e_status r = vlen) \/ (~ gives g 0 /\ e_status r = 0%Z)).
Proof.
  intros S D P X. rewrite main_act. rewrite <- knife_decls in S, P.
  destruct (parse_accepts knife_state e args g f knife_ready S D) as [m E].
  - rewrite knife_decls. apply knife_complete.
  - exact P.
  - rewrite knife_decls. now apply knife_compatible.
  - rewrite knife_nofree. discriminate.
  - rewrite E. cbn [bind]. rewrite knife_decls in S, P. now apply (act_does args).
Qed.

Lemma main_does vlen w e args : (forall g f, says knife_table Any args g f -> ~ (gives g 4 /\ gives g 9)) ->
  exists r, main vlen w (e :: args) = Ok r /\
   ((exists g f, says knife_table Any args g f /\ NoDup (map fst g) /\ supported knife_table g /\ does w g (e_events r) /\
      ((gives g 0 /\ e_status r = vlen) \/ (~ gives g 0 /\ e_status r = 0%Z))) \/
    (e_events r = [] /\
     (~ exists g f, says knife_table Any args g f /\ NoDup (map fst g) /\ supported knife_table g) /\
     (e_status r = (-1)%Z \/ exists a s v s', In a args /\ option_in s a v s' /\ asks v))).
Proof.
  intro X. destruct (parse_returns knife_state e args knife_ready) as [[st'|x] E].
  - pose proof (parse_goes _ _ _ _ knife_ready E) as (g & f & m & t & S & D & C & -> & F & K).
    rewrite knife_decls in S, K.
    destruct K as [(-> & P & _)|[_ N]]; [|destruct N; apply knife_compatible; now apply (X g f)].
    destruct (act_does args g f m [] S D vlen w P (X g f S)) as (r & A & B). exists r.
    rewrite main_act, E. cbn [bind]. split; [exact A|]. left. exists g, f. tauto.
  - eexists. rewrite main_act, E. cbn [bind]. split; [reflexivity|]. right. split; [reflexivity|]. split.
    + intros (g & f & S & D & P). destruct (parse_accepts knife_state e args g f knife_ready) as [m E'];
        rewrite ?knife_decls; try assumption; [apply knife_complete | apply knife_compatible; now apply (X g f) | rewrite knife_nofree; discriminate | congruence].
    + cbn [e_status]. destruct (Z.eq_dec (status x) 0) as [Z|Z].
      * right. exact (parse_status _ _ _ _ knife_ready E Z).
      * left. destruct x; cbn in *; congruence.
Qed.

(** the options and the files decide what is done *)
Lemma written_one (w : world) g k k' e e' : NoDup (map fst g) -> (forall o, k o = k' o) -> written w g k e -> written w g k' e' -> e = e'.
Proof.
  intros D K A B.
  assert (N : forall o : bytes, In (2, Some o) g -> gives g 2) by (intros o O; now apply (in_map fst) in O).
  destruct A as [A|o A1 A2|o A1 A2], B as [B|o' B1 B2|o' B1 B2]; try (now destruct (A (N _ B1))); try (now destruct (B (N _ A1)));
    try (pose proof (functional g 2 _ _ D A1 B1) as Q; injection Q as <-); congruence || apply K.
Qed.

Lemma acts_one w g i e e' : NoDup (map fst g) -> acts w g i e -> acts w g i e' -> e = e'.
Proof.
  intros D A B. destruct A, B; try contradiction; try congruence.
  - f_equal. apply (written_one w g (Header i) (Header i)); auto.
  - f_equal. f_equal. apply (written_one w g (Htmlized i) (Htmlized i)); auto.
Qed.

Lemma does_one w g e e' : NoDup (map fst g) -> does w g e -> does w g e' -> e = e'.
Proof.
  intros D A B.
  destruct A as [A|i o A1 A2 A3 A4 A5|A1 A2 A3 A4 A5|i evs A1 A2 A3 A4 A5],
    B as [B|i' o' B1 B2 B3 B4 B5|B1 B2 B3 B4 B5|i' evs' B1 B2 B3 B4 B5]; try contradiction; try reflexivity; try tauto.
  - destruct (B2 A2 _ _ A3 A4 A5).
  - pose proof (functional g 1 _ _ D A3 B4) as Q. injection Q as <-. destruct (B2 A2 _ A4 A5).
  - destruct (A2 B2 _ _ B3 B4 B5).
  - pose proof (functional g 1 _ _ D A4 B3) as Q. injection Q as <-. destruct (A2 B2 _ B4 B5).
  - pose proof (functional g 1 _ _ D A4 B4) as Q. injection Q as <-. now apply (acts_one w g i).
Qed.
