(** The loader and its version on texts do the same. *)
From Verif Require Import Prelude StrModel StrSpec StrProofs StrProofs2 StrProofs3 TreeModel StreamModel StreamProofs ParseModel ParseProofs
  DtdModel DtdDocModel LoadModel LoadProofs.
Open Scope Z_scope.
Local Arguments Z.of_nat : simpl never.
Local Arguments Z.to_nat : simpl never.
Local Arguments Z.add : simpl never.
Local Arguments Z.sub : simpl never.
Local Arguments Z.eqb : simpl never.
Local Arguments Z.ltb : simpl never.
Local Arguments Z.leb : simpl never.

Ltac r_step :=
  match goal with
  | M : rest ?st ?s |- context [consume_spaces ?st] =>
    let st' := fresh "st" in let E := fresh "E" in let M' := fresh "M" in
    destruct (r_spaces st s M) as (st' & E & M' & _); rewrite E; cbn [bind]; clear E M; rename M' into M
  | M : rest ?st ?s |- context [stream_inspect ?st ?c] =>
    let st' := fresh "st" in let E := fresh "E" in let M' := fresh "M" in
    destruct (r_inspect st s c M) as (st' & E & M' & _); [nf|discriminate|]; rewrite E; cbn [bind]; rewrite ?insp_pos; clear E M; rename M' into M
  | M : rest ?st ?s |- context [stream_peek ?st ?c] =>
    let st' := fresh "st" in let E := fresh "E" in let M' := fresh "M" in let A := fresh "A" in
    destruct (r_peek st s c M) as (st' & E & M' & A); [nf|discriminate|]; rewrite E; cbn [bind]; rewrite ?insp_pos; clear E M; rename M' into M
  | M : rest ?st ?s |- context [get_until ?st ?acc ?c] =>
    let st' := fresh "st" in let E := fresh "E" in let M' := fresh "M" in
    let H := fresh "H" in
    pose proof (r_until st s acc c M) as H; destruct (until c s) as [[[[? ?] ?] ?]|];
    (destruct H as (st' & E & M' & _); [gc|]; rewrite E; cbn [bind]; clear E M; rename M' into M)
  end.
Ltac r_after c s := unfold rest_of in *; destruct (after c s) eqn:?.

Lemma which_ok {A} : forall (l : list (bytes * A)) st s d, rest st s -> Forall good_chunk (map fst l) ->
  exists st', which st l d = Ok (st', snd (t_which s l d)) /\ rest st' (fst (t_which s l d)).
Proof.
  induction l as [|[c v] l IH]; intros st s d M G; [exists st; auto|]. inversion G as [|? ? [G1 G2] G']; subst. cbn [which t_which].
  destruct (r_inspect st s c M G1 G2) as (st' & E & M' & _). rewrite E. cbn [bind]. rewrite insp_pos. unfold rest_of in M'.
  destruct (after c s); [exists st'; auto|]. apply IH; assumption.
Qed.
Ltac r_which :=
  match goal with
  | M : rest ?st ?s |- context [which ?st ?l ?d] =>
    let st' := fresh "st" in let E := fresh "E" in let M' := fresh "M" in
    destruct (which_ok l st s d M) as (st' & E & M'); [gc|]; rewrite E; cbn [bind]; clear E M; rename M' into M
  end.

Lemma close_ok : forall stack st s chunk cur, rest st s ->
  exists st', close_loop st chunk cur stack = (let '(_, c, o, k) := t_close s chunk cur stack in Ok (st', c, o, k)) /\
    rest st' (fst (fst (fst (t_close s chunk cur stack)))).
Proof.
  induction stack as [|up stack IH]; intros st s chunk cur M; cbn [close_loop t_close]; unfold repetition.
  - r_step. fold reps_of. r_which. destruct (t_which (skip s) reps_of TOne) as [s1 t]. cbn [fst snd] in *. r_step. fold seps_of. r_which.
    destruct (t_which (skip s1) seps_of chunk) as [s2 c]. cbn [fst snd] in *. r_step. r_step. eexists. split; [reflexivity|assumption].
  - r_step. fold reps_of. r_which. destruct (t_which (skip s) reps_of TOne) as [s1 t]. cbn [fst snd] in *. r_step. fold seps_of. r_which.
    destruct (t_which (skip s1) seps_of chunk) as [s2 c]. cbn [fst snd] in *. r_step. r_step. r_after (s2b ")") (skip s2).
    + apply IH. assumption.
    + eexists. split; [reflexivity|assumption].
Qed.
Lemma separator_ok st s : rest st s ->
  match t_separator s with Some (s', c) => exists st', update_separator st = Ok (Some (st', c)) /\ rest st' s' | None => update_separator st = Ok None end.
Proof.
  intros M. unfold update_separator, t_separator. r_step. fold ends_of. r_which. destruct (t_which (skip s) ends_of None) as [s1 [c|]]; cbn [fst snd] in *; eauto.
Qed.

(** what follows a name in [spec_loop] *)
Definition name_step (st : stream) (ty : el_type) (cur : open) (stack : list open) (x : bytes) (chunk : Z) : res (option (stream * Z * el_type * open * list open)) :=
  '(st, chunk) <- (if chunk =? 0 then st <- consume_spaces st ;; update_chunk st chunk else Ok (st, chunk)) ;;
  let cur := add_part cur (Leaf x (times_of chunk)) in
  '(st, chunk) <-! (if (chunk =? 4) || (chunk =? 5) || (chunk =? 6) then update_separator st else Ok (Some (st, chunk))) ;;
  match retype (o_ty cur) chunk with
  | None => Ok None
  | Some nt =>
    let cur := Open nt (o_t cur) (o_ps cur) in
    let ty := retype_element ty chunk x (length (o_ps cur)) in
    '(st, chunk, cur, stack) <- (if chunk =? 3 then close_loop st chunk cur stack else Ok (st, chunk, cur, stack)) ;;
    Ok (Some (st, chunk, ty, cur, stack))
  end.
Lemma spec_loop_S fuel st ty cur stack : spec_loop (S fuel) st ty cur stack =
  (st <- consume_spaces st ;;
   '(st, v) <- stream_inspect st (s2b "(") ;;
   if 0 <? v then spec_loop fuel st ty open_new (cur :: stack)
   else
     '(st, o) <- get_until st true particle_stops ;;
     match o with
     | None => Ok None
     | Some (x, chunk) =>
       if chunk =? 8 then Ok None
       else
         '(st, chunk, ty, cur, stack) <-! name_step st ty cur stack (cstr x) chunk ;;
         if negb (chunk =? 3) || match stack with [] => false | _ => true end then spec_loop fuel st ty cur stack
         else Ok (Some (st, (ty, top_of cur)))
     end).
Proof.
  cbn [spec_loop]. destruct (consume_spaces st) as [st1| |]; try reflexivity. cbn [bind]. destruct (stream_inspect st1 _) as [[st2 v]| |]; try reflexivity.
  cbn [bind]. destruct (0 <? v); [reflexivity|]. destruct (get_until st2 true particle_stops) as [[st3 [[x c]|]]| |]; try reflexivity. cbn [bind].
  destruct (c =? 8); [reflexivity|]. unfold name_step.
  destruct (if c =? 0 then _ else _) as [[st4 c4]| |]; try reflexivity. cbn [bind].
  destruct (if _ || _ || _ then _ else _) as [[[st5 c5]|]| |]; try reflexivity. cbn [bindo].
  destruct (retype _ c5) as [nt|]; [|reflexivity].
  destruct (if c5 =? 3 then _ else _) as [[[[st6 c6] cur6] stack6]| |]; reflexivity.
Qed.
Lemma name_ok st s ty cur stack x chunk : rest st s ->
  match t_name s ty cur stack x chunk with
  | None => name_step st ty cur stack x chunk = Ok None
  | Some (s', c, ty', o, k) => exists st', name_step st ty cur stack x chunk = Ok (Some (st', c, ty', o, k)) /\ rest st' s'
  end.
Proof.
  intros M. unfold name_step, t_name.
  assert (exists st1, (if chunk =? 0 then st <- consume_spaces st ;; update_chunk st chunk else Ok (st, chunk)) =
    Ok (st1, snd (if chunk =? 0 then t_which (skip s) chunks_of chunk else (s, chunk))) /\
    rest st1 (fst (if chunk =? 0 then t_which (skip s) chunks_of chunk else (s, chunk)))) as (st1 & E1 & M1).
  { destruct (chunk =? 0); [|exists st; auto]. unfold update_chunk. r_step. fold chunks_of. r_which. eauto. }
  rewrite E1. cbn [bind]. destruct (if chunk =? 0 then t_which (skip s) chunks_of chunk else (s, chunk)) as [s1 c1]. cbn [fst snd] in *. clear E1 M.
  assert (match (if (c1 =? 4) || (c1 =? 5) || (c1 =? 6) then t_separator s1 else Some (s1, c1)) with
          | None => (if (c1 =? 4) || (c1 =? 5) || (c1 =? 6) then update_separator st1 else Ok (Some (st1, c1))) = Ok None
          | Some (s', c) => exists st', (if (c1 =? 4) || (c1 =? 5) || (c1 =? 6) then update_separator st1 else Ok (Some (st1, c1))) = Ok (Some (st', c)) /\ rest st' s' end) as H.
  { destruct (_ || _ || _); [apply separator_ok; assumption|eauto]. }
  destruct (if (c1 =? 4) || (c1 =? 5) || (c1 =? 6) then t_separator s1 else Some (s1, c1)) as [[s2 c2]|]; [|rewrite H; reflexivity]. destruct H as (st2 & -> & M2). cbn [bindo].
  destruct (retype _ c2) as [nt|]; [|reflexivity]. set (cur' := Open nt _ _).
  assert (exists st', (if c2 =? 3 then close_loop st2 c2 cur' stack else Ok (st2, c2, cur', stack)) =
    (let '(_, c, o, k) := if c2 =? 3 then t_close s2 c2 cur' stack else (s2, c2, cur', stack) in Ok (st', c, o, k)) /\
    rest st' (fst (fst (fst (if c2 =? 3 then t_close s2 c2 cur' stack else (s2, c2, cur', stack)))))) as (st3 & E3 & M3).
  { destruct (c2 =? 3); [apply close_ok; assumption|exists st2; auto]. }
  rewrite E3. destruct (if c2 =? 3 then t_close s2 c2 cur' stack else (s2, c2, cur', stack)) as [[[s4 c4] o4] k4]. cbn [bind fst] in *. eauto.
Qed.
Lemma spec_ok : forall f st s ty cur stack, rest st s -> simr (spec_loop f st ty cur stack) (t_spec f s ty cur stack).
Proof.
  induction f as [|f IH]; intros st s ty cur stack M; [reflexivity|]. rewrite spec_loop_S. cbn [t_spec]. r_step. r_step.
  r_after (s2b "(") (skip s); [apply IH; assumption|]. r_step; [|reflexivity].
  match goal with |- context [if ?c =? 8 then _ else _] => destruct (c =? 8); [reflexivity|] end.
  match goal with |- context [name_step ?a ?b ?c ?d ?e ?g] => pose proof (name_ok a _ b c d e g M) as H end.
  destruct (t_name _ _ _ _ _ _) as [[[[[s2 c2] ty2] o2] k2]|]; [|rewrite H; reflexivity].
  destruct H as (st4 & -> & M4). cbn [bindo]. destruct (negb (c2 =? 3) || _); [apply IH; assumption|]. cbn. eauto.
Qed.

(** ** fuel *)
Lemma which_len {A} (l : list (bytes * A)) : forall s d, Forall good_chunk (map fst l) -> (length (fst (t_which s l d)) <= length s)%nat.
Proof.
  induction l as [|[c v] l IH]; intros s d G; [apply le_n|]. inversion G; subst. cbn [t_which]. destruct (after c s) eqn:E; [|apply IH; assumption].
  apply after_len in E. cbn [fst]. lia.
Qed.
Lemma rest_of_len s c : (length (rest_of s c) <= length s)%nat.
Proof. unfold rest_of. destruct (after c s) eqn:E; [apply after_len in E; lia|lia]. Qed.
Lemma close_len : forall stack s chunk cur, (length (fst (fst (fst (t_close s chunk cur stack)))) <= length s)%nat.
Proof.
  induction stack as [|up stack IH]; intros s chunk cur; cbn [t_close].
  - pose proof (which_len reps_of (skip s) TOne ltac:(gc)) as L1. destruct (t_which (skip s) reps_of TOne) as [s1 t]. cbn [fst] in L1.
    pose proof (which_len seps_of (skip s1) chunk ltac:(gc)) as L2. destruct (t_which (skip s1) seps_of chunk) as [s2 c]. cbn [fst snd] in *.
    pose proof (skip_len s). pose proof (skip_len s1). pose proof (skip_len s2). pose proof (rest_of_len (skip s2) (s2b ")")). lia.
  - pose proof (which_len reps_of (skip s) TOne ltac:(gc)) as L1. destruct (t_which (skip s) reps_of TOne) as [s1 t]. cbn [fst] in L1.
    pose proof (which_len seps_of (skip s1) chunk ltac:(gc)) as L2. destruct (t_which (skip s1) seps_of chunk) as [s2 c]. cbn [fst snd] in *.
    pose proof (skip_len s). pose proof (skip_len s1). pose proof (skip_len s2).
    destruct (after (s2b ")") (skip s2)) as [s3|] eqn:E; [|cbn [fst]; lia]. apply after_len in E.
    match goal with |- context [t_close s3 c ?u stack] => specialize (IH s3 c u) end. lia.
Qed.
Lemma name_len s ty cur stack x chunk s' c ty' o k : t_name s ty cur stack x chunk = Some (s', c, ty', o, k) -> (length s' <= length s)%nat.
Proof.
  unfold t_name. pose proof (which_len chunks_of (skip s) chunk ltac:(gc)) as L1. pose proof (skip_len s).
  assert (length (fst (if (chunk =? 0)%Z then t_which (skip s) chunks_of chunk else (s, chunk))) <= length s)%nat as L0 by (destruct (chunk =? 0); cbn [fst]; lia).
  destruct (if chunk =? 0 then t_which (skip s) chunks_of chunk else (s, chunk)) as [s1 c1]. cbn [fst] in L0. intros H1.
  assert (forall s2 c2, (if (c1 =? 4) || (c1 =? 5) || (c1 =? 6) then t_separator s1 else Some (s1, c1)) = Some (s2, c2) -> (length s2 <= length s1)%nat) as L2.
  { intros s2 c2. destruct (_ || _ || _); [|intros E; inversion E; lia]. unfold t_separator.
    pose proof (which_len ends_of (skip s1) None ltac:(gc)) as L3. pose proof (skip_len s1). destruct (t_which (skip s1) ends_of None) as [s3 [c3|]]; [|discriminate].
    intros E; inversion E; subst. cbn [fst] in L3. lia. }
  destruct (if (c1 =? 4) || (c1 =? 5) || (c1 =? 6) then t_separator s1 else Some (s1, c1)) as [[s2 c2]|]; [|discriminate]. specialize (L2 _ _ eq_refl).
  destruct (retype _ c2) as [nt|]; [|discriminate].
  match type of H1 with context [t_close s2 c2 ?u stack] => pose proof (close_len stack s2 c2 u) as L4; set (cc := t_close s2 c2 u stack) in * end.
  destruct (c2 =? 3); [|inversion H1; subst; lia]. destruct cc as [[[s4 c4] o4] k4]. inversion H1; subst. cbn [fst] in L4. lia.
Qed.
Lemma stops_good : Forall good_chunk particle_stops.
Proof. gc. Qed.
(** a round reads at least one byte *)
Lemma spec_fuel : forall n s f g ty cur stack, (length s <= n)%nat -> (n < f)%nat -> (n < g)%nat -> t_spec f s ty cur stack = t_spec g s ty cur stack.
Proof.
  induction n as [n IH] using lt_wf_ind. intros s [|f] [|g] ty cur stack L Lf Lg; try lia. cbn [t_spec]. pose proof (skip_len s).
  destruct (after (s2b "(") (skip s)) as [s1|] eqn:E; [apply after_len in E; simpl in E; apply (IH (n - 1)%nat); lia|].
  destruct (until particle_stops (skip s)) as [[[[x c] a] b]|] eqn:U; [|reflexivity].
  pose proof (until_len particle_stops _ _ _ _ _ stops_good U) as U2. apply until_shorter in U as U3; [|apply stops_good].
  destruct (c =? 8); [reflexivity|]. destruct (t_name b ty cur stack (cstr x) c) as [[[[[s2 c2] ty2] o2] k2]|] eqn:N; [|reflexivity].
  apply name_len in N. destruct (_ || _); [|reflexivity]. apply (IH (n - 1)%nat); lia.
Qed.
Lemma spec_total : forall n s f ty cur stack, (length s <= n)%nat -> (n < f)%nat -> exists o, t_spec f s ty cur stack = Ok o.
Proof.
  induction n as [n IH] using lt_wf_ind. intros s [|f] ty cur stack L Lf; [lia|]. cbn [t_spec]. pose proof (skip_len s).
  destruct (after (s2b "(") (skip s)) as [s1|] eqn:E; [apply after_len in E; simpl in E; apply (IH (n - 1)%nat); lia|].
  destruct (until particle_stops (skip s)) as [[[[x c] a] b]|] eqn:U; [|eauto].
  apply until_shorter in U as U3; [|apply stops_good].
  destruct (c =? 8); [eauto|]. destruct (t_name b ty cur stack (cstr x) c) as [[[[[s2 c2] ty2] o2] k2]|] eqn:N; [|eauto].
  apply name_len in N. destruct (_ || _); [|eauto]. apply (IH (n - 1)%nat); lia.
Qed.
Lemma spec_len : forall f s ty cur stack s' x, t_spec f s ty cur stack = Ok (Some (s', x)) -> (length s' <= length s)%nat.
Proof.
  induction f as [|f IH]; intros s ty cur stack s' x H; [discriminate|]. cbn [t_spec] in H. pose proof (skip_len s).
  destruct (after (s2b "(") (skip s)) as [s1|] eqn:E; [apply after_len in E; apply IH in H; lia|].
  destruct (until particle_stops (skip s)) as [[[[y c] a] b]|] eqn:U; [|discriminate].
  apply until_shorter in U as U3; [|apply stops_good].
  destruct (c =? 8); [discriminate|]. destruct (t_name b ty cur stack (cstr y) c) as [[[[[s2 c2] ty2] o2] k2]|] eqn:N; [|discriminate].
  apply name_len in N. destruct (_ || _); [apply IH in H; lia|]. inversion H; subst. lia.
Qed.
Lemma rest_turns st s : rest st s -> (length s + 2 < turns st)%nat.
Proof. intros [M _]. apply mem_turns, M. Qed.
Lemma read_spec_ok st s : rest st s -> simr (read_spec st) (t_read_spec s).
Proof.
  intros M. unfold read_spec, t_read_spec. r_step. r_step. destruct (_ =? 0); [reflexivity|]. cbv zeta. pose proof (rest_turns _ _ M) as T.
  rewrite (spec_fuel (length (rest_of (skip s) (s2b "("))) _ (S (length (rest_of (skip s) (s2b "(")))) (turns st1)) by lia.
  apply spec_ok, M.
Qed.
Lemma read_spec_total s : exists o, t_read_spec s = Ok o.
Proof. unfold t_read_spec. destruct (_ =? 0); [eauto|]. cbv zeta. eapply spec_total; [apply le_n|lia]. Qed.
