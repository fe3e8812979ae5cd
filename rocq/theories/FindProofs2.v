(** Paths. *)
From Verif Require Import Prelude ItemModel ItemSpec ItemExec ItemProofs StrModel StrSpec StrProofs StrProofs2 StrProofs3 FindModel FindSpec FindProofs.
Open Scope nat_scope.
Open Scope list_scope.

Lemma cut_not c s : c <> "/"%char -> cut_at [slash] (c :: s) = None.
Proof. intros N. change (cut_at [slash] (c :: s)) with (match (if Ascii.eqb "/" c then Some s else None) with Some r => Some (slash, r) | None => None end). destruct (Ascii.eqb_spec "/" c) as [<-|]; [contradiction|reflexivity]. Qed.
Lemma pieces_path x l : ~ In "/"%char x -> Forall segment l -> pieces [slash] (x ++ path_text l) (x :: l).
Proof.
  intros N F. revert x N. induction F as [|y l P F IH]; intros x N.
  - cbn [path_text flat_map]. rewrite app_nil_r. induction x as [|c x IH]; [constructor|]. apply pieces_char; [|apply IH; intros I; apply N; right; exact I].
    apply cut_not. intros ->. apply N; left; reflexivity.
  - destruct P as (_ & Ny). induction x as [|c x IHx].
    + cbn [app]. apply pieces_cut with slash (y ++ path_text l); [reflexivity|]. apply IH, Ny.
    + cbn [app]. apply pieces_char; [|apply IHx; intros I; apply N; right; exact I].
      apply cut_not. intros ->. apply N; left; reflexivity.
Qed.
Lemma plain_segment l : Forall plain l -> Forall segment l.
Proof. apply Forall_impl. intros x (A & B & _). split; assumption. Qed.
Lemma path_nul_free l : Forall segment l -> nul_free (path_text l).
Proof.
  intros F I. induction F as [|x l (N & _) F IH]; [destruct I|]. cbn [path_text flat_map] in I. rewrite <- app_assoc in I. cbn in I. destruct I as [E|I]; [discriminate|].
  apply in_app_or in I as [I|I]; [exact (N I)|exact (IH I)].
Qed.

Section Rep.
Variable name : nat -> bytes.
Variable h : heap.
Variable s : fam.
Variable ch : chain.
Hypothesis R : Rep h s ch.

Lemma path_loop_ok total : forall l it n, Forall plain l -> known s n = true ->
  exists r, path_loop name h l total it n = Ok r /\
    (forall m, r = Some m -> spells name (f_kids s) n l m) /\
    (unique_names name s -> forall m, spells name (f_kids s) n l m -> r = Some m).
Proof.
  induction l as [|x l IH]; intros it n F K; cbn [path_loop].
  - exists (Some n). split; [reflexivity|]. split; [intros m E; injection E as <-; constructor|]. intros _ m Sp. inversion Sp; subst. reflexivity.
  - inversion F as [|? ? P F']; subst. destruct P as (_ & _ & Ne & Ns). destruct (Nat.eqb_spec (length x) 0) as [E0|_]; [destruct x; [contradiction|discriminate]|].
    destruct (bytes_eqb x star) eqn:Es; [apply bytes_eqb_eq in Es; contradiction|]. cbn [andb]. rewrite (get_child_called_ok name h s ch R n K x). cbn [bind].
    destruct (find (fun c => bytes_eqb (name c) x) (elements (f_kids s n))) as [c|] eqn:Ef.
    + apply find_some in Ef as [Ic En]. apply bytes_eqb_eq in En. assert (Kc : known s c = true) by (apply (kid_known h s ch R n c K), elements_in, Ic).
      destruct (IH (it + 1) c F' Kc) as (r & Er & S1 & S2). exists r. split; [exact Er|]. split; [intros m Em; econstructor; eauto|].
      intros U m Sp. inversion Sp as [|? c' ? ? ? Ic' En' Sp']; subst. assert (c' = c); [|subst; auto].
      specialize (U n K). clear -U Ic Ic' En'. induction (elements (f_kids s n)) as [|y ys IHy]; [destruct Ic|]. cbn [map] in U. inversion U as [|? ? Ny Uy]; subst.
      destruct Ic as [->|Ic], Ic' as [->|Ic']; [reflexivity|exfalso; apply Ny; rewrite <- En'; apply in_map; assumption|exfalso; apply Ny; rewrite En'; apply in_map; assumption|auto].
    + exists None. split; [reflexivity|]. split; [discriminate|]. intros _ m Sp. inversion Sp as [|? c' ? ? ? Ic' En' Sp']; subst. pose proof (find_none _ _ Ef c' Ic') as X. cbn in X. rewrite bytes_eqb_refl in X. discriminate.
Qed.
Lemma split_path l rest : l <> [] -> Forall segment l -> (a <- stream_split (path_text l ++ NUL :: rest) [slash ++ [NUL]] ;; strv a) = Ok ([] :: l).
Proof.
  intros Nl F. apply (split_ok _ (path_text l) [slash] ([] :: l)).
  - split; [apply path_nul_free, F|eauto].
  - destruct l; [contradiction|discriminate].
  - repeat constructor. intros [E|[]]; discriminate.
  - exact (pieces_path [] l (fun I => I) F).
Qed.
Lemma doc_get_eq root x l rest : Forall segment (x :: l) ->
  doc_get name h root (path_text (x :: l) ++ NUL :: rest) =
  if negb (Nat.eqb (length x) 0) && negb (bytes_eqb (name root) x) then Ok None else path_loop name h l (2 + length l) 2 root.
Proof.
  intros F. pose proof (split_path (x :: l) rest ltac:(discriminate) F) as Sp. unfold doc_get.
  assert (E0 : rd (path_text (x :: l) ++ NUL :: rest) 0 = Ok "/"%char) by reflexivity. rewrite E0. cbn [bind]. cbn [negb Ascii.eqb Bool.eqb].
  destruct (stream_split (path_text (x :: l) ++ NUL :: rest) [slash ++ [NUL]]) as [a| |] eqn:Ea; cbn [bind] in Sp; try discriminate. cbn [bind]. rewrite Sp. cbn [bind]. reflexivity.
Qed.
Lemma doc_get_ok root l rest : Forall plain l -> l <> [] -> known s root = true ->
  exists r, doc_get name h root (path_text l ++ NUL :: rest) = Ok r /\
    (forall m, r = Some m -> at_path name (f_kids s) root l m) /\
    (unique_names name s -> forall m, at_path name (f_kids s) root l m -> r = Some m).
Proof.
  intros F Ne K. destruct l as [|x l]; [contradiction|]. pose proof F as F0. inversion F as [|? ? P F']; subst.
  rewrite (doc_get_eq root x l rest (plain_segment _ F0)).
  destruct P as (_ & _ & Nx & _). destruct (Nat.eqb_spec (length x) 0) as [E1|_]; [destruct x; [contradiction|discriminate]|]. cbn [negb andb].
  destruct (bytes_eqb (name root) x) eqn:En; cbn [negb].
  - apply bytes_eqb_eq in En. destruct (path_loop_ok (2 + length l) l 2 root F' K) as (r & Er & S1 & S2). exists r. split; [exact Er|]. split; [intros m Em; split; auto|]. intros U m [_ Sm]. auto.
  - exists None. split; [reflexivity|]. split; [discriminate|]. intros _ m [Em _]. rewrite Em, bytes_eqb_refl in En. discriminate.
Qed.
Lemma path_loop_star more : more <> [] \/ (forall n, name n <> star) -> forall l it n, Forall plain l -> known s n = true ->
  path_loop name h (l ++ star :: more) (it + length (l ++ star :: more)) it n = Ok None.
Proof.
  intros D. induction l as [|x l IH]; intros it n F K; cbn [app path_loop length].
  - change (length star) with 1. cbn [Nat.eqb]. rewrite bytes_eqb_refl. cbn [andb].
    destruct (Nat.eqb_spec (it + S (length more)) (it + 1)) as [E|E]; cbn [negb]; [|reflexivity].
    destruct D as [D|D]; [destruct more; [contradiction|cbn in E; lia]|]. rewrite (get_child_called_ok name h s ch R n K star). cbn [bind].
    destruct (find (fun c => bytes_eqb (name c) star) (elements (f_kids s n))) as [c|] eqn:Ef; [|reflexivity].
    apply find_some in Ef as [_ En]. apply bytes_eqb_eq in En. destruct (D c En).
  - inversion F as [|? ? P F']; subst. destruct P as (_ & _ & Ne & Ns). destruct (Nat.eqb_spec (length x) 0) as [E0|_]; [destruct x; [contradiction|discriminate]|].
    destruct (bytes_eqb x star) eqn:Es; [apply bytes_eqb_eq in Es; contradiction|]. cbn [andb]. rewrite (get_child_called_ok name h s ch R n K x). cbn [bind].
    destruct (find (fun c => bytes_eqb (name c) x) (elements (f_kids s n))) as [c|] eqn:Ef; [|reflexivity].
    apply find_some in Ef as [Ic _]. assert (Kc : known s c = true) by (apply (kid_known h s ch R n c K), elements_in, Ic).
    replace (it + S (length (l ++ star :: more))) with (it + 1 + length (l ++ star :: more)) by lia. apply IH; assumption.
Qed.
Lemma doc_get_star root l more rest : Forall plain l -> l <> [] -> Forall segment more -> more <> [] \/ (forall n, name n <> star) -> known s root = true ->
  doc_get name h root (path_text (l ++ star :: more) ++ NUL :: rest) = Ok None.
Proof.
  intros F Ne Fm D K. destruct l as [|x l]; [contradiction|]. cbn [app]. rewrite doc_get_eq.
  - destruct (negb _ && negb _); [reflexivity|]. inversion F; subst. apply (path_loop_star more D l 2 root); assumption.
  - apply (plain_segment (x :: l)) in F. inversion F; subst. constructor; [assumption|]. apply Forall_app. split; [assumption|]. constructor; [|assumption].
    split; [intros [I|[]]; discriminate I|intros [I|[]]; discriminate I].
Qed.
End Rep.
