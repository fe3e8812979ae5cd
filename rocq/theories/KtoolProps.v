(** C76: axl-knife does what its options say. *)
From Verif Require Import Prelude ExargModel ExargSpec ExargExec KtoolSpec KtoolProofs ExargCases.

(** for every command line that does not give both --htmlize and --dtd-to-c the tool ends
    without a fault; if the command line says options, each once and with those they need, it
    does exactly what they ask; otherwise it does nothing, and its status is that of failure
    unless an argument asks for help *)
Theorem C76_does_partial : forall vlen w e args,
  (forall g f, says knife_table Any args g f -> ~ (gives g 4 /\ gives g 9)) ->
  exists r, main vlen w (e :: args) = Ok r /\
   ((exists g f, says knife_table Any args g f /\ NoDup (map fst g) /\ supported knife_table g /\ does w g (e_events r) /\
      ((gives g 0 /\ e_status r = vlen) \/ (~ gives g 0 /\ e_status r = 0%Z))) \/
    (e_events r = [] /\
     (~ exists g f, says knife_table Any args g f /\ NoDup (map fst g) /\ supported knife_table g) /\
     (e_status r = (-1)%Z \/ exists a s v s', In a args /\ option_in s a v s' /\ asks v))).
Proof. exact main_does. Qed.
Print Assumptions C76_does_partial.

(** each such command line is carried out *)
Theorem C76_runs : forall vlen w e args g f, says knife_table Any args g f -> NoDup (map fst g) ->
  supported knife_table g -> ~ (gives g 4 /\ gives g 9) ->
  exists r, main vlen w (e :: args) = Ok r /\ does w g (e_events r) /\
    ((gives g 0 /\ e_status r = vlen) \/ (~ gives g 0 /\ e_status r = 0%Z)).
Proof. exact main_runs. Qed.
Print Assumptions C76_runs.

(** what is done is decided by the options and the files *)
Theorem C76_does_one : forall w g e e', NoDup (map fst g) -> does w g e -> does w g e' -> e = e'.
Proof. exact does_one. Qed.
Print Assumptions C76_does_one.

(** with both actions, which exclude each other, a document that was never loaded is used *)
Theorem C76_exclusion_refuted : exists w args g f, says knife_table Any args g f /\ NoDup (map fst g) /\ supported knife_table g /\
  main 6 w (s2b "axl-knife" :: args) = UB.
Proof. exact exclusion_faults. Qed.
Print Assumptions C76_exclusion_refuted.

(** the status does not tell that the document checked is wrong *)
Theorem C76_status_refuted : exists w args f r,
  main 6 w (s2b "axl-knife" :: args) = Ok r /\ In (DocFailed f) (e_events r) /\ e_status r = 0%Z.
Proof. exact status_lost. Qed.
Print Assumptions C76_status_refuted.
