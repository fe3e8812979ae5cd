(** C75: the options that the program sees are those that the command line says. *)
From Verif Require Import Prelude ExargModel ExargSpec ExargExec ExargProofs ExargProofs2 ExargCases.

(** whatever options a program has installed: if reading the command line returns, it says
    the options with their values, each once, and the other arguments, that the program sees;
    every option that is obligatory is there, and, unless the message about an exclusion has
    been printed, what they need is there and what they forbid is not *)
Theorem C75_reads : forall prog st e args st',
  do_steps start prog = Goes st -> parse st (e :: args) = Ok (Goes st') ->
  exists g f, says (decls st) Any args g f /\ NoDup (map fst g) /\ complete (decls st) g /\ x_params st' = f /\
    (forall w i d, means (decls st) w i d -> (is_defined st' w = true <-> In i (map fst g))) /\
    (forall w, (forall i d, ~ means (decls st) w i d) -> is_defined st' w = false) /\
    (forall w i d v, means (decls st) w i d -> d_value d = Text -> (get_string st' w = Goes (Some v) <-> In (i, Some v) g)) /\
    (x_nofree st = true -> f = []) /\
    ((x_told st' = [] /\ supported (decls st) g /\ compatible (decls st) g) \/ (x_told st' <> [] /\ ~ compatible (decls st) g)).
Proof. exact parse_reads. Qed.
Print Assumptions C75_reads.

(** a command line says only one thing *)
Theorem C75_says_one : forall ds s args g f, says ds s args g f ->
  forall g' f', says ds s args g' f' -> g = g' /\ f = f'.
Proof. exact says_one. Qed.
Print Assumptions C75_says_one.

(** an option that takes a number has the number that its value denotes *)
Theorem C75_numbers : forall prog st e args st', do_steps start prog = Goes st -> parse st (e :: args) = Ok (Goes st') ->
  exists g f, says (decls st) Any args g f /\
    forall w i d v n, means (decls st) w i d -> d_value d = Number -> In (i, Some v) g -> numeral v n -> get_int st' w = Goes n.
Proof. exact parse_numbers. Qed.
Print Assumptions C75_numbers.

(** a negative number of one digit cannot be given, one of two digits can *)
Theorem C75_negative_refuted : exists prog st w i d, do_steps start prog = Goes st /\ means (decls st) w i d /\ d_value d = Number /\
  (exists x, parse st [s2b "k"; s2b "--times"; s2b "-5"] = Ok (Ends x)) /\
  (exists st', parse st [s2b "k"; s2b "--times"; s2b "-50"] = Ok (Goes st') /\ get_int st' w = Goes (-50)%Z).
Proof. exact negative_ends. Qed.
Print Assumptions C75_negative_refuted.

(** a command line that says options in this way is accepted *)
Theorem C75_accepts : forall prog st e args g f,
  do_steps start prog = Goes st -> says (decls st) Any args g f -> NoDup (map fst g) ->
  complete (decls st) g -> supported (decls st) g -> compatible (decls st) g -> (x_nofree st = true -> f = []) ->
  exists st', parse st (e :: args) = Ok (Goes st') /\ x_told st' = [].
Proof. exact parse_takes. Qed.
Print Assumptions C75_accepts.

(** any other command line ends the program without a fault, with the status of success only
    if an argument asks for help *)
Theorem C75_ends : forall prog st e args, do_steps start prog = Goes st ->
  (exists st', parse st (e :: args) = Ok (Goes st')) \/
  (exists w, parse st (e :: args) = Ok (Ends w) /\
    (status w = 0%Z -> exists a s v s', In a args /\ option_in s a v s' /\ asks v)).
Proof. exact parse_ends. Qed.
Print Assumptions C75_ends.

(** options that exclude each other are accepted *)
Theorem C75_exclusion_refuted : exists prog st args g f st', do_steps start prog = Goes st /\ says (decls st) Any args g f /\
  ~ compatible (decls st) g /\ parse st (s2b "k" :: args) = Ok (Goes st').
Proof. exact exclusion_goes. Qed.
Print Assumptions C75_exclusion_refuted.

(** and then an option may be accepted without those it needs *)
Theorem C75_dependency_refuted : exists prog st args g f st', do_steps start prog = Goes st /\ says (decls st) Any args g f /\
  NoDup (map fst g) /\ ~ supported (decls st) g /\ parse st (s2b "k" :: args) = Ok (Goes st').
Proof. exact dependency_goes. Qed.
Print Assumptions C75_dependency_refuted.

(** what a program says about two options is what is required of the command line, and
    nothing else changes *)
Theorem C75_relations : forall st s a b st', s = Dependency a b \/ s = Exclusion a b -> do_step st s = Goes st' ->
  exists i j d e d', means (decls st) a i d /\ means (decls st) b j e /\ nth_error (decls st') i = Some d' /\
    d_names d' = d_names d /\
    (s = Dependency a b -> d_needs d' = j :: d_needs d /\ d_forbids d' = d_forbids d) /\
    (s = Exclusion a b -> d_needs d' = d_needs d /\ d_forbids d' = j :: d_forbids d) /\
    forall k, k <> i -> nth_error (decls st') k = nth_error (decls st) k.
Proof. exact relations_kept. Qed.
Print Assumptions C75_relations.

(** the long name of an option is not a name of one installed before, and no two options have
    the same short name *)
Theorem C75_distinct_partial : forall prog st i j d e, do_steps start prog = Goes st -> i < j ->
  nth_error (decls st) i = Some d -> nth_error (decls st) j = Some e ->
  ~ In (hd [] (d_names e)) (d_names d) /\ forall s, In s (tl (d_names d)) -> ~ In s (tl (d_names e)).
Proof. exact steps_distinct. Qed.
Print Assumptions C75_distinct_partial.

(** but a short name can be the long name of another: two options with the same name can be
    installed *)
Theorem C75_conflict_refuted : exists prog st i j d e w, do_steps start prog = Goes st /\ i <> j /\
  nth_error (decls st) i = Some d /\ nth_error (decls st) j = Some e /\ In w (d_names d) /\ In w (d_names e).
Proof. exact conflict_goes. Qed.
Print Assumptions C75_conflict_refuted.

(** an option can be installed that no command line gives: asking for help hides it *)
Theorem C75_hidden_refuted : exists prog st w i d, do_steps start prog = Goes st /\ means (decls st) w i d /\
  forall s a s', option_in s a w s' -> forall e rest, s = Any -> exists x, parse st (e :: a :: rest) = Ok (Ends x) /\ status x = 0%Z.
Proof. exact help_hides. Qed.
Print Assumptions C75_hidden_refuted.

(** the help shows every description whole: its lines, without what they are moved in, give
    the text *)
Theorem C75_help_text : forall text size fill, exists h t,
  wrap text size fill = h :: map (app fill) t /\ spaced (h :: t) = text.
Proof. exact wrap_whole. Qed.
Print Assumptions C75_help_text.
