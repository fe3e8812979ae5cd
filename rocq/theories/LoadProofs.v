(** The loader on memory streams as a function of the text still to be read. *)
From Verif Require Import Prelude StrModel StrSpec StrProofs StrProofs2 StrProofs3 TreeModel StreamModel StreamProofs ParseModel ParseProofs
  DtdModel DtdDocModel LoadModel.
Open Scope Z_scope.
Local Arguments Z.of_nat : simpl never.
Local Arguments Z.to_nat : simpl never.
Local Arguments Z.add : simpl never.
Local Arguments Z.sub : simpl never.
Local Arguments Z.eqb : simpl never.
Local Arguments Z.ltb : simpl never.
Local Arguments Z.leb : simpl never.

Lemma bind_ok {A B} (e : res A) (k : A -> res B) v : bind e k = Ok v -> exists a, e = Ok a /\ k a = Ok v.
Proof. destruct e; try discriminate. cbn. eauto. Qed.
Lemma bindo_ok {A B} (e : res (option A)) (k : A -> res (option B)) v : bindo e k = Ok (Some v) -> exists a, e = Ok (Some a) /\ k a = Ok (Some v).
Proof. destruct e as [[a|]| |]; try discriminate. cbn. eauto. Qed.

(** ** memory streams keep their buffer *)
Lemma prebuffer_mem st : s_kind st = MEM -> prebuffer st = Ok (st, false).
Proof. intros K. unfold prebuffer. rewrite K. reflexivity. Qed.
Lemma inspect_still acc st c st' v : common_inspect acc st c = Ok (st', v) -> s_kind st = MEM -> still st st'.
Proof.
  intros H K. unfold common_inspect in H. destruct (_ <? _).
  - rewrite prebuffer_mem in H by assumption. cbn [bind negb] in H. inversion H; subst. apply still_refl.
  - cbn [bind] in H. apply bind_ok in H as (p & _ & H). apply bind_ok in H as (r & _ & H).
    destruct r; inversion H; subst; [|apply still_refl]. destruct acc; repeat split.
Qed.
Lemma spaces_still : forall f st r st', spaces_loop f st r = Ok st' -> s_kind st = MEM -> still st st'.
Proof.
  induction f as [|f IH]; intros st r st' H K; [discriminate|]. cbn [spaces_loop] in H.
  destruct (r - 1 <? 0).
  - rewrite prebuffer_mem in H by assumption. cbn [bind] in H. inversion H; subst. apply still_refl.
  - cbn [bind] in H. apply bind_ok in H as (c & _ & H). destruct (is_ws c); [|inversion H; subst; apply still_refl].
    apply IH in H; [|exact K]. exact H.
Qed.
Lemma until_still : forall f st chunks acc ref i r ag st' o, until_loop f st chunks acc ref i r ag = Ok (st', o) -> s_kind st = MEM ->
  s_kind st' = MEM /\ (ref = false -> still st st').
Proof.
  induction f as [|f IH]; intros st chunks acc ref i r ag st' o H K; [discriminate|]. cbn [until_loop] in H.
  assert (R : forall i n it, until_result st acc ref i n it = Ok (st', o) -> s_kind st' = MEM /\ (ref = false -> still st st')).
  { intros j n it E. unfold until_result in E. apply bind_ok in E as (t & _ & E). destruct ref.
    - apply bind_ok in E as (b & _ & E). inversion E; subst. split; [exact K|discriminate].
    - cbn [bind] in E. inversion E; subst. split; [exact K|]. repeat split. }
  apply bind_ok in H as ([[[st0 go] i0] r0] & E0 & H). assert (st0 = st) as ->.
  { destruct ag; [inversion E0; reflexivity|]. destruct (r - 1 <? 0); [rewrite K in E0|]; inversion E0; reflexivity. }
  clear E0. destruct go; [|inversion H; subst; split; [exact K|intros _; apply still_refl]].
  apply bind_ok in H as ([[it n]|] & _ & H).
  - destruct (_ && _); [|eapply R; exact H]. rewrite prebuffer_mem in H by assumption. cbn [bind] in H. eapply R; exact H.
  - eapply IH; eassumption.
Qed.

(** a memory stream of which [s] remains to be read *)
Definition rest (st : stream) (s : bytes) : Prop := mem st s /\ s_kind st = MEM.
Lemma rest_new content : rest (stream_mem content) content.
Proof. split; [apply mem_new|reflexivity]. Qed.
Lemma still_kind st st' : still st st' -> s_kind st = MEM -> s_kind st' = MEM.
Proof. intros (E & _ & _) K. congruence. Qed.

Lemma r_inspect st s c : rest st s -> nul_free c -> c <> [] ->
  exists st', stream_inspect st c = Ok (st', insp s c) /\ rest st' (rest_of s c) /\ still st st'.
Proof.
  intros [M K] H1 H2. destruct (inspect_ok st s c M H1 H2) as (st' & E & M'). pose proof (inspect_still true _ _ _ _ E K) as S1.
  exists st'. split; [exact E|]. split; [split; [exact M'|eapply still_kind; eassumption]|exact S1].
Qed.
Lemma r_peek st s c : rest st s -> nul_free c -> c <> [] ->
  exists st', stream_peek st c = Ok (st', insp s c) /\ rest st' s /\ (after c s <> None -> rest (stream_accept st') (rest_of s c)).
Proof.
  intros [M K] H1 H2. destruct (peek_ok st s c M H1 H2) as (st' & E & M' & _ & MA). pose proof (inspect_still false _ _ _ _ E K) as S1.
  pose proof (still_kind _ _ S1 K) as K'. exists st'. split; [exact E|]. split; [split; assumption|]. intros N. split; [auto|exact K'].
Qed.
Lemma r_spaces st s : rest st s -> exists st', consume_spaces st = Ok st' /\ rest st' (skip s) /\ still st st'.
Proof.
  intros [M K]. destruct (spaces_ok st s M) as (st' & E & M' & _). pose proof (spaces_still _ _ _ _ E K) as S1.
  exists st'. split; [exact E|]. split; [split; [exact M'|eapply still_kind; eassumption]|exact S1].
Qed.
Lemma r_remains st s : rest st s -> exists st', stream_remains st = Ok (st', match s with [] => false | _ => true end) /\ rest st' s.
Proof.
  intros [M K]. destruct (remains_ok st s M) as (st' & E & M' & _). exists st'. split; [exact E|]. split; [exact M'|].
  unfold stream_remains in E. rewrite prebuffer_mem in E by assumption. destruct (_ <=? _); inversion E; subst; exact K.
Qed.
Lemma r_until st s acc chunks : rest st s -> Forall good_chunk chunks ->
  match until chunks s with
  | None => exists st', get_until st acc chunks = Ok (st', None) /\ rest st' s /\ still st st'
  | Some (t, it, a, b) => exists st', get_until st acc chunks = Ok (st', Some (t, it)) /\ rest st' (if acc then b else a) /\ still st st'
  end.
Proof.
  intros [M K] G. pose proof (get_until_ok st s acc chunks M G) as H. destruct (until chunks s) as [[[[t it] a] b]|];
    destruct H as (st' & E & M'); pose proof (until_still _ _ _ _ _ _ _ _ _ _ E K) as [K' S1]; exists st'; (split; [exact E|]); (split; [split; assumption|auto]).
Qed.
Lemma until_ref_kind st chunks st' o : get_until_ref st true chunks = Ok (st', o) -> s_kind st = MEM -> s_kind st' = MEM.
Proof. intros E K. apply (until_still _ _ _ _ _ _ _ _ _ _ E K). Qed.
Lemma comments_kind : forall f st d st' d', p_header d = false -> comments_loop f st d = Ok (Some (st', d')) -> s_kind st = MEM -> s_kind st' = MEM.
Proof.
  induction f as [|f IH]; intros st d st' d' Hd H K; [discriminate|]. cbn [comments_loop] in H.
  apply bind_ok in H as (st1 & E1 & H). pose proof (still_kind _ _ (spaces_still _ _ _ _ E1 K) K) as K1.
  apply bind_ok in H as ([st2 v] & E2 & H). pose proof (still_kind _ _ (inspect_still true _ _ _ _ E2 K1) K1) as K2.
  apply bindo_ok in H as ([[st3 d3] found] & E3 & H).
  assert (s_kind st3 = MEM /\ p_header d3 = false) as [K3 H3].
  { destruct (0 <? v); [|inversion E3; subst; auto]. apply bind_ok in E3 as ([st4 [[c i]|]] & E4 & E3); [|discriminate].
    inversion E3; subst. split; [eapply until_ref_kind; eassumption|]. unfold add_item. destruct (p_stack d); exact Hd. }
  apply bind_ok in H as (st4 & E4 & H). pose proof (still_kind _ _ (spaces_still _ _ _ _ E4 K3) K3) as K4.
  rewrite H3 in H. cbn [bind] in H. change (0 <? 0) with false in H. cbn [bindo] in H. destruct found; [eapply IH; eassumption|].
  apply bind_ok in H as (st5 & E5 & H). inversion H; subst. exact (still_kind _ _ (spaces_still _ _ _ _ E5 K4) K4).
Qed.

(** the outcome of the loader against that of its version on texts *)
Definition simr {A} (r : res (option (stream * A))) (o : res (option (bytes * A))) : Prop :=
  match o with
  | Ok None => r = Ok None
  | Ok (Some (s, x)) => exists st, r = Ok (Some (st, x)) /\ rest st s
  | NoFuel => r = NoFuel
  | UB => False
  end.
Lemma simr_bind {A B} (r : res (option (stream * A))) o (k : stream * A -> res (option (stream * B))) k' : simr r o ->
  (forall st s x, rest st s -> simr (k (st, x)) (k' (s, x))) -> simr (bindo r k) (bindo o k').
Proof. intros H Hk. destruct o as [[[s x]|]| |]; cbn in H; [destruct H as (st & -> & M); apply Hk, M|subst; reflexivity|destruct H|subst; reflexivity]. Qed.
Lemma r_comments st s d : p_header d = false -> rest st s ->
  simr (consume_comments st d) (Ok (a_comments s d)).
Proof.
  intros Hd [M K]. pose proof (comments_ok st s d M) as H. unfold sim in H. destruct (a_comments s d) as [[s' d']|]; [|exact H].
  destruct H as (st' & E & M'). exists st'. split; [exact E|]. split; [exact M'|]. eapply comments_kind; eassumption.
Qed.

(** ** the loader on texts *)
Fixpoint t_which {A} (s : bytes) (l : list (bytes * A)) (d : A) : bytes * A :=
  match l with
  | [] => (s, d)
  | (c, v) :: l => match after c s with Some r => (r, v) | None => t_which s l d end
  end.
Definition reps_of : list (bytes * times) := [(s2b "?", TOpt); (s2b "+", TPlus); (s2b "*", TMany)].
Definition seps_of : list (bytes * Z) := [(s2b ",", 1); (s2b "|", 2)].
Definition chunks_of : list (bytes * Z) := [(s2b ",", 1); (s2b "|", 2); (s2b ")", 3); (s2b "+", 4); (s2b "*", 5); (s2b "?", 6)].
Definition ends_of : list (bytes * option Z) := [(s2b ",", Some 1); (s2b "|", Some 2); (s2b ")", Some 3)].
Fixpoint t_close (s : bytes) (chunk : Z) (cur : open) (stack : list open) : bytes * Z * open * list open :=
  let '(s, t) := t_which (skip s) reps_of TOne in
  let cur := Open (o_ty cur) t (o_ps cur) in
  let '(s, chunk) := t_which (skip s) seps_of chunk in
  match stack with
  | [] => (rest_of (skip s) (s2b ")"), chunk, cur, [])
  | up :: stack =>
    let up := add_part up (closed cur) in
    match after (s2b ")") (skip s) with
    | Some s => t_close s chunk up stack
    | None => (skip s, chunk, up, stack)
    end
  end.
Definition t_separator (s : bytes) : option (bytes * Z) :=
  match t_which (skip s) ends_of None with (s, Some c) => Some (s, c) | _ => None end.
(** after a name of a content specification *)
Definition t_name (s : bytes) (ty : el_type) (cur : open) (stack : list open) (x : bytes) (chunk : Z) : option (bytes * Z * el_type * open * list open) :=
  let '(s, chunk) := if chunk =? 0 then t_which (skip s) chunks_of chunk else (s, chunk) in
  let cur := add_part cur (Leaf x (times_of chunk)) in
  match (if (chunk =? 4) || (chunk =? 5) || (chunk =? 6) then t_separator s else Some (s, chunk)) with
  | None => None
  | Some (s, chunk) =>
    match retype (o_ty cur) chunk with
    | None => None
    | Some nt =>
      let cur := Open nt (o_t cur) (o_ps cur) in
      let ty := retype_element ty chunk x (length (o_ps cur)) in
      let '(s, chunk, cur, stack) := if chunk =? 3 then t_close s chunk cur stack else (s, chunk, cur, stack) in
      Some (s, chunk, ty, cur, stack)
    end
  end.
Definition top_of (cur : open) : part := Group (match o_ty cur with Undef => Sequence | nt => nt end) (o_t cur) (o_ps cur).
Fixpoint t_spec (fuel : nat) (s : bytes) (ty : el_type) (cur : open) (stack : list open) : res (option (bytes * (el_type * part))) :=
  match fuel with
  | O => NoFuel
  | S fuel =>
    match after (s2b "(") (skip s) with
    | Some s => t_spec fuel s ty open_new (cur :: stack)
    | None =>
      match until particle_stops (skip s) with
      | None => Ok None
      | Some (x, chunk, _, s) =>
        if chunk =? 8 then Ok None
        else
          match t_name s ty cur stack (cstr x) chunk with
          | None => Ok None
          | Some (s, chunk, ty, cur, stack) =>
            if negb (chunk =? 3) || match stack with [] => false | _ => true end then t_spec fuel s ty cur stack
            else Ok (Some (s, (ty, top_of cur)))
          end
      end
    end
  end.
Definition t_read_spec (s : bytes) : res (option (bytes * (el_type * part))) :=
  if insp (skip s) (s2b "(") =? 0 then Ok None
  else let s := rest_of (skip s) (s2b "(") in t_spec (S (length s)) s TChildren open_new [].

Definition t_content (s : bytes) : res (option (bytes * (el_type * option part))) :=
  match after (s2b "EMPTY") s with
  | Some s => Ok (Some (s, (TEmpty, None)))
  | None =>
    match after (s2b "ANY") s with
    | Some s => Ok (Some (s, (TAny, None)))
    | None => '(s, (ty, p)) <-! t_read_spec s ;; Ok (Some (s, (ty, Some p)))
    end
  end.
Definition t_element (s : bytes) (l : load) : res (option (bytes * load)) :=
  match after (s2b "<!ELEMENT") (skip s) with
  | None => Ok None
  | Some s =>
    match until [s2b ">"; s2b "("; s2b " "] (skip s) with
    | None => Ok None
    | Some (x, m, s, _) =>
      if (m =? 0) || (m =? 3) then Ok None
      else
        '(s, (ty, p)) <-! t_content (skip s) ;;
        if existsb (fun e => bytes_eqb (el_name e) (cstr x)) (l_elements l) then Ok None
        else if insp (skip s) (s2b ">") =? 0 then Ok None
        else
          let e := ElDecl (cstr x) ty p (match p with Some p => compulsory_num p | None => 0%nat end) in
          Ok (Some (rest_of (skip s) (s2b ">"), Load (l_elements l ++ [e]) (l_attrs l) (l_entities l) (l_id l) (l_idref l)))
    end
  end.

Definition t_expand (s : bytes) (ents : list entity) : option bytes :=
  match after (s2b "%") s with
  | None => Some s
  | Some r =>
    match until [s2b ";"] r with
    | None => None
    | Some (x, _, _, r) =>
      match entity_value ents (cstr x) EParameter with
      | None => Some s
      | Some v => Some (v ++ s2b " " ++ r)
      end
    end
  end.
Definition t_att_type (s : bytes) : res (option (bytes * at_type)) :=
  let '(s, o) := t_which s att_types None in
  match o with
  | None => Ok None
  | Some (AEnum _) =>
    match until [s2b ")"] s with
    | None => Ok None
    | Some (x, _, _, s) => l <- enum_values (cstr x) ;; Ok (Some (s, AEnum l))
    end
  | Some ty => Ok (Some (s, ty))
  end.
Definition t_default (s : bytes) : option (bytes * at_default) :=
  let '(s, o) := t_which s [(s2b "#REQUIRED", Some ARequired); (s2b "#IMPLIED", Some AImplied)] None in
  match o with
  | Some d => Some (s, d)
  | None =>
    let '(s, d) := match after (s2b "#FIXED") s with Some s => (skip s, AFixed) | None => (s, AImplied) end in
    match after dquote s, after (s2b "'") s with None, None => None | _, _ => Some (s, d) end
  end.
Definition t_value (s : bytes) : bytes * option bytes :=
  let '(s, o) := t_which s [(dquote, Some dquote); (s2b "'", Some (s2b "'"))] None in
  match o with
  | None => (s, None)
  | Some q => match until [q] s with Some (x, _, _, s) => (s, Some (cstr x)) | None => (s, None) end
  end.
Definition bad_id (decls : list at_decl) (name : bytes) (ty : at_type) (df : at_default) : bool :=
  match ty with
  | AId =>
    match find is_id (decls ++ [AtDecl name ty df None]) with Some b => negb (bytes_eqb (ad_name b) name) | None => false end ||
    match df with AFixed => true | _ => false end
  | _ => false
  end.
Definition bad_enum (ty : at_type) (value : option bytes) : bool :=
  match ty, value with AEnum vs, Some v => negb (existsb (bytes_eqb v) vs) | _, _ => false end.
Definition flag_id (id : bool) (ty : at_type) : bool := id || match ty with AId => true | _ => false end.
Fixpoint t_atts (fuel : nat) (ents : list entity) (s : bytes) (decls : list at_decl) (id idref : bool) : res (option (bytes * (list at_decl * bool * bool))) :=
  match fuel with
  | O => NoFuel
  | S fuel =>
    match after (s2b ">") (skip s) with
    | Some s => Ok (Some (s, (decls, id, idref)))
    | None =>
      match until [s2b " "] (skip s) with
      | None => Ok None
      | Some (x, _, s, _) =>
        match t_expand (skip s) ents with
        | None => Ok None
        | Some s =>
          '(s, ty) <-! t_att_type s ;;
          match t_default (skip s) with
          | None => Ok None
          | Some (s, df) =>
            if bad_id decls (cstr x) ty df then Ok None
            else
              let '(s, value) := t_value (skip s) in
              if bad_enum ty value then Ok None
              else t_atts fuel ents s (decls ++ [AtDecl (cstr x) ty df value]) (flag_id id ty) (idref || is_idrefs ty)
          end
        end
      end
    end
  end.
Definition t_attlist (fuel : nat) (s : bytes) (l : load) : res (option (bytes * load)) :=
  match until [s2b " "] (skip s) with
  | None => Ok None
  | Some (x, _, s, _) =>
    '(s, (decls, id, idref)) <-! t_atts fuel (l_entities l) s (decls_of (l_attrs l) (cstr x)) (l_id l) (l_idref l) ;;
    Ok (Some (s, Load (l_elements l) (put_attr (l_attrs l) (cstr x) decls) (l_entities l) id idref))
  end.
Definition ent_starts : list (bytes * option (option bytes)) :=
  [(s2b "PUBLIC", Some None); (s2b "SYSTEM", Some None); (dquote, Some (Some dquote)); (s2b "'", Some (Some (s2b "'")))].
Definition t_entity (s : bytes) (l : load) : option (bytes * load) :=
  match after (s2b "<!ENTITY") (skip s) with
  | None => None
  | Some s =>
    let '(s, ty) := match after (s2b "%") (skip s) with Some s => (skip s, EParameter) | None => (skip s, EGeneral) end in
    match until [s2b " "] s with
    | None => None
    | Some (x, _, s, _) =>
      let '(s, o) := t_which (skip s) ent_starts None in
      match o with
      | None => None
      | Some q =>
        let '(s, content) := match q with
                             | None => (s, None)
                             | Some q => match until [q] s with Some (y, _, _, s) => (s, Some (cstr y)) | None => (s, None) end
                             end in
        match after (s2b ">") (skip s) with
        | Some s => Some (s, Load (l_elements l) (l_attrs l) (l_entities l ++ [Entity (cstr x) ty content]) (l_id l) (l_idref l))
        | None => None
        end
      end
    end
  end.
Fixpoint t_dtd (fuel : nat) (s : bytes) (l : load) (iterator : Z) : res (option (bytes * load)) :=
  match fuel with
  | O => NoFuel
  | S fuel =>
    match s with
    | [] => Ok (Some ([], l))
    | _ =>
      match a_comments s pdoc_new with
      | None => Ok None
      | Some (s, _) =>
        match after (s2b "<!ELEMENT") s with
        | Some _ => '(s, l) <-! t_element s l ;; t_dtd fuel s l iterator
        | None =>
          match after (s2b "<!ATTLIST") s with
          | Some s => '(s, l) <-! t_attlist fuel s l ;; t_dtd fuel s l iterator
          | None =>
            match after (s2b "<!ENTITY") s with
            | Some _ => '(s, l) <-! Ok (t_entity s l) ;; t_dtd fuel s l iterator
            | None => if iterator =? 3 then Ok None else t_dtd fuel s l (iterator + 1)
            end
          end
        end
      end
    end
  end.
