(** Loading a DTD from a file without parameter entity references ends. *)
From Verif Require Import Prelude StrModel StrProofs TreeModel StreamModel StreamProofs ParseModel ParseProofs DtdModel DtdDocModel DtdDocSpec DtdDocProofs3 DtdDocProofs4 LoadModel LoadSpec LoadProofs LoadProofs2 LoadProofs3 LoadProofs9
  FsafeProofs FsafeProofs2 FsafeProofs3 FdtdProofs.
Open Scope Z_scope.
Local Arguments Z.of_nat : simpl never.
Local Arguments Z.to_nat : simpl never.
Local Arguments Z.add : simpl never.
Local Arguments Z.sub : simpl never.
Local Arguments Z.eqb : simpl never.
Local Arguments Z.ltb : simpl never.
Local Arguments Z.leb : simpl never.

Section Ends.
Context (c : bytes).
(** the stream is at a place of the text [c], and [m] bounds what it still has to do *)
Definition at_ (st : stream) (m : nat) : Prop := exists s, live st s m /\ suffix s c.
Definition down (st : stream) (m : nat) : Prop := exists m', (m' <= m)%nat /\ at_ st m'.
Definition less (st : stream) (m : nat) : Prop := exists m', (m' < m)%nat /\ at_ st m'.
Lemma less_down st m : less st m -> down st m.
Proof. intros (m' & L & H). exists m'. split; [lia|exact H]. Qed.
Lemma down_le st m n : down st m -> (m <= n)%nat -> down st n.
Proof. intros (m' & L & H) Hn. exists m'. split; [lia|exact H]. Qed.
Lemma less_le st m n : less st m -> (m <= n)%nat -> less st n.
Proof. intros (m' & L & H) Hn. exists m'. split; [lia|exact H]. Qed.
Lemma at_down st m : at_ st m -> down st m.
Proof. intros H. exists m. auto. Qed.
Lemma i_inspect st m x : at_ st m -> solid x -> exists st' v, stream_inspect st x = Ok (st', v) /\ down st' m /\ ((0 <? v) = true -> less st' m).
Proof.
  intros (s & L & Hs) Sx. destruct (inspect_live _ _ _ _ L Sx) as (st' & v & s' & m' & E & L' & Lm & Hs' & Y & _). exists st', v. split; [exact E|].
  assert (A : at_ st' m') by (exists s'; split; [exact L'|eapply suffix_trans; eassumption]). split; [exists m'; auto|]. intros H. exists m'. split; [apply Y, H|exact A].
Qed.
Lemma i_peek st m x : at_ st m -> solid x -> exists st' v, stream_peek st x = Ok (st', v) /\ down st' m /\ ((0 <? v) = true -> less (stream_accept st') m).
Proof.
  intros (s & L & Hs) Sx. destruct (peek_live _ _ _ _ L Sx) as (st' & v & b & E & N & Lb & Y & _). exists st', v. split; [exact E|].
  split; [exists (length s + b)%nat; split; [exact Lb|exists s; split; [left; exists b; auto|exact Hs]]|].
  intros H. destruct (Y H) as (s' & m' & L' & Lm & Hs' & _). exists m'. split; [exact Lm|]. exists s'. split; [exact L'|eapply suffix_trans; eassumption].
Qed.
Lemma i_spaces st m : at_ st m -> exists st', consume_spaces st = Ok st' /\ down st' m.
Proof.
  intros (s & L & Hs). destruct (spaces_live _ _ _ L) as (st' & s' & m' & E & L' & Lm & Hs' & _). exists st'. split; [exact E|]. exists m'.
  pose proof (suffix_len _ _ Hs'). split; [lia|]. exists s'. split; [exact L'|eapply suffix_trans; eassumption].
Qed.
Lemma i_remains st m : at_ st m -> exists st' more, stream_remains st = Ok (st', more) /\ down st' m.
Proof.
  intros (s & L & Hs). destruct (remains_live _ _ _ L) as (st' & more & m' & E & L' & Lm & _). exists st', more. split; [exact E|]. exists m'. split; [exact Lm|]. exists s. auto.
Qed.
Lemma i_until acc chunks st m : at_ st m -> Forall good_chunk chunks ->
  exists st' o, get_until st acc chunks = Ok (st', o) /\ down st' m /\ (acc = true -> o <> None -> less st' m).
Proof.
  intros (s & L & Hs) G. unfold get_until. destruct L as [(b & N & ->)|[O ->]].
  - destruct (until_nrm acc false chunks st s b ltac:(discriminate) G N) as (st' & o & E & b' & Lb & [(-> & N')|(t & x & s' & -> & Hx & _ & N' & _)]).
    + exists st', None. split; [exact E|]. split; [|congruence]. exists (length s + b')%nat. split; [lia|]. exists s. split; [left; eauto|exact Hs].
    + exists st', o. split; [exact E|]. assert (1 <= length x)%nat by (destruct x; [contradiction|simpl; lia]). rewrite !app_length.
      assert (A : at_ st' (length (if acc then s' else x ++ s') + b')).
      { eexists. split; [left; exists b'; split; [exact N'|reflexivity]|]. eapply suffix_trans; [|exact Hs]. destruct acc; [rewrite app_assoc|]; apply suffix_app. }
      destruct acc; rewrite ?app_length in A; (split; [eexists; split; [|exact A]; lia|]); [intros _ _; eexists; split; [|exact A]; lia|discriminate].
  - destruct (until_over acc false chunks st s O) as (st' & E & N'). exists st', None. split; [exact E|]. split; [|congruence].
    exists (length s + 0)%nat. split; [lia|]. exists s. split; [left; eauto|exact Hs].
Qed.
Lemma i_comments st m d : at_ st m -> okay False (consume_comments st d) (fun x => down (fst x) m).
Proof.
  intros (s & L & Hs). apply (okay_imp False False _ _ _ (consume_okay False st s m d L)); [auto|]. intros x (s' & m' & L' & Lm & Hs' & _).
  exists m'. split; [exact Lm|]. exists s'. split; [exact L'|eapply suffix_trans; eassumption].
Qed.
Lemma i_which {A} : forall (l : list (bytes * option A)) st m d, at_ st m -> Forall solid (map fst l) ->
  exists st' o, which st l d = Ok (st', o) /\ down st' m /\ (o = d \/ less st' m).
Proof.
  induction l as [|[x v] l IH]; intros st m d L G; [exists st, d; split; [reflexivity|split; [apply at_down, L|auto]]|].
  cbn [which]. pose proof (Forall_inv G) as Gx. cbn [fst] in Gx. apply Forall_inv_tail in G.
  destruct (i_inspect st m x L Gx) as (st1 & r & -> & D & Y). cbn [bind]. destruct (0 <? r); [exists st1, v; auto|].
  destruct D as (m1 & L1 & A1). destruct (IH st1 m1 d A1 G) as (st2 & o & E & D2 & H). exists st2, o. split; [exact E|]. split; [eapply down_le; eassumption|].
  destruct H as [H|H]; [auto|right; eapply less_le; eassumption].
Qed.
Lemma i_whichv {A} : forall (l : list (bytes * A)) st m d, at_ st m -> Forall solid (map fst l) -> exists st' o, which st l d = Ok (st', o) /\ down st' m.
Proof.
  induction l as [|[x v] l IH]; intros st m d L G; [exists st, d; split; [reflexivity|apply at_down, L]|].
  cbn [which]. pose proof (Forall_inv G) as Gx. cbn [fst] in Gx. apply Forall_inv_tail in G.
  destruct (i_inspect st m x L Gx) as (st1 & r & -> & D & Y). cbn [bind]. destruct (0 <? r); [exists st1, v; auto|].
  destruct D as (m1 & L1 & A1). destruct (IH st1 m1 d A1 G) as (st2 & o & E & D2). exists st2, o. split; [exact E|]. eapply down_le; eassumption.
Qed.
Ltac slds := repeat (apply Forall_cons; [sld|]); apply Forall_nil.
Ltac goat := match goal with D : down ?s ?m |- _ => let m' := fresh "m" in let L := fresh "L" in let A := fresh "A" in destruct D as (m' & L & A) end.
Ltac go :=
  match goal with
  | H : at_ ?s ?m |- context [consume_spaces ?s] => let st' := fresh "st" in let D := fresh "D" in destruct (i_spaces s m H) as (st' & -> & D); cbn [bind]; goat
  | H : at_ ?s ?m |- context [stream_inspect ?s ?x] => let st' := fresh "st" in let v := fresh "v" in let D := fresh "D" in let Y := fresh "Y" in destruct (i_inspect s m x H ltac:(sld)) as (st' & v & -> & D & Y); cbn [bind]; goat
  | H : at_ ?s ?m |- context [stream_peek ?s ?x] => let st' := fresh "st" in let v := fresh "v" in let D := fresh "D" in let Y := fresh "Y" in destruct (i_peek s m x H ltac:(sld)) as (st' & v & -> & D & Y); cbn [bind]; goat
  | H : at_ ?s ?m |- context [get_until ?s ?acc ?x] => let st' := fresh "st" in let o := fresh "o" in let D := fresh "D" in let Y := fresh "Y" in destruct (i_until acc x s m H ltac:(gc)) as (st' & o & -> & D & Y); cbn [bind]; goat
  | H : at_ ?s ?m |- context [which ?s ?l ?d] => let st' := fresh "st" in let o := fresh "o" in let D := fresh "D" in destruct (i_whichv l s m d H ltac:(slds)) as (st' & o & -> & D); cbn [bind]; goat
  end.
Ltac dn := match goal with A : at_ ?s ?m' |- down ?s _ => exists m'; split; [lia|exact A] end.
Lemma i_close : forall stack st m chunk cur, at_ st m -> exists y, close_loop st chunk cur stack = Ok y /\ down (fst (fst (fst y))) m.
Proof.
  induction stack as [|up stack IH]; intros st m chunk cur A; cbn [close_loop]; unfold repetition; go; go; go; go; go; go.
  - eexists. split; [reflexivity|]. cbn [fst]. dn.
  - destruct (0 <? v).
    + match goal with A : at_ ?s ?m |- context [close_loop ?s ?ch ?cu ?k] => destruct (IH s m ch cu A) as (y & -> & D) end. eexists. split; [reflexivity|]. eapply down_le; [exact D|lia].
    + eexists. split; [reflexivity|]. cbn [fst]. dn.
Qed.
Lemma i_separator st m : at_ st m -> okay False (update_separator st) (fun x => down (fst x) m).
Proof. intros A. unfold update_separator. go. go. destruct o; [apply okay_some; cbn [fst]; dn|apply okay_none]. Qed.
Lemma i_name st m ty cur stack x chunk : at_ st m -> okay False (name_step st ty cur stack x chunk) (fun y => down (fst (fst (fst (fst y)))) m).
Proof.
  intros A. unfold name_step.
  assert (E : exists st1 c1, (if chunk =? 0 then st <- consume_spaces st ;; update_chunk st chunk else Ok (st, chunk)) = Ok (st1, c1) /\ down st1 m).
  { destruct (chunk =? 0); [|exists st, chunk; split; [reflexivity|apply at_down, A]]. unfold update_chunk. go. go. eexists _, _. split; [reflexivity|dn]. }
  destruct E as (st1 & c1 & -> & D1). cbn [bind]. destruct D1 as (m1 & L1 & A1). apply (okay_bind False _ _ (fun x => down (fst x) m1)).
  - destruct (_ || _ || _); [apply i_separator, A1|apply okay_some, at_down, A1].
  - intros [st2 c2] (m2 & L2 & A2). cbn [fst] in A2. destruct (retype _ c2); [|apply okay_none].
    assert (E : exists y, (if c2 =? 3 then close_loop st2 c2 (Open n (o_t (add_part cur (Leaf x (times_of c1)))) (o_ps (add_part cur (Leaf x (times_of c1))))) stack
      else Ok (st2, c2, Open n (o_t (add_part cur (Leaf x (times_of c1)))) (o_ps (add_part cur (Leaf x (times_of c1)))), stack)) = Ok y /\ down (fst (fst (fst y))) m2).
    { destruct (c2 =? 3); [apply i_close, A2|eexists; split; [reflexivity|apply at_down, A2]]. }
    destruct E as ([[[st3 c3] o3] k3] & -> & D3). cbn [bind]. apply okay_some. cbn [fst] in *. eapply down_le; [exact D3|lia].
Qed.
Lemma i_spec : forall n st m ty cur stack, at_ st m -> (m < n)%nat -> okay False (spec_loop n st ty cur stack) (fun x => down (fst x) m).
Proof.
  induction n as [|n IH]; intros st m ty cur stack A Ln; [lia|]. rewrite spec_loop_S. go. go. destruct (0 <? v) eqn:V.
  - destruct (Y eq_refl) as (m2 & L2 & A2). apply (okay_imp False False _ _ _ (IH _ _ ty open_new (cur :: stack) A2 ltac:(lia))); [auto|]. intros x D. eapply down_le; [exact D|lia].
  - match goal with A : at_ ?s ?m |- context [get_until ?s ?acc ?x] => destruct (i_until acc x s m A stops_good) as (st2 & o & -> & D & Y') end. cbn [bind].
    destruct o as [[x ch]|]; [|apply okay_none]. destruct (Y' eq_refl ltac:(discriminate)) as (m3 & L3 & A3). destruct (ch =? 8); [apply okay_none|].
    eapply okay_bind; [apply i_name, A3|]. intros [[[[st4 c4] ty4] o4] k4] (m4 & L4 & A4). cbn [fst] in A4. destruct (_ || _).
    + apply (okay_imp False False _ _ _ (IH _ _ ty4 o4 k4 A4 ltac:(lia))); [auto|]. intros y D4. eapply down_le; [exact D4|lia].
    + apply okay_some. cbn [fst]. dn.
Qed.
Lemma i_read st m : at_ st m -> okay False (read_spec st) (fun x => down (fst x) m).
Proof.
  intros A. unfold read_spec. go. go. destruct (v =? 0); [apply okay_none|].
  match goal with A : at_ ?s ?m |- context [turns ?s] => assert (Lt : (m < turns s)%nat) by (destruct A as (s' & Lv & _); exact (live_turns _ _ _ Lv)); apply (okay_imp False False _ _ _ (i_spec _ _ _ TChildren open_new [] A Lt)) end; [auto|].
  intros x D. eapply down_le; [exact D|lia].
Qed.
Lemma i_element st m l : at_ st m -> okay False (parse_element st l) (fun x => less (fst x) m).
Proof.
  intros A. unfold parse_element. go. go. destruct (0 <? v) eqn:V; [|apply okay_none]. cbn [negb]. destruct (Y eq_refl) as (mm & Lm & Am).
  go. go. destruct o as [[name i]|]; [|apply okay_none]. destruct (_ || _); [apply okay_none|]. go. go.
  apply (okay_bind False _ _ (fun x => down (fst x) mm)).
  - destruct (0 <? v0) eqn:V0; [apply okay_some; cbn [fst]; eapply down_le; [apply less_down, Y1; reflexivity|lia]|]. go.
    destruct (0 <? v1) eqn:V1; [apply okay_some; cbn [fst]; eapply down_le; [apply less_down, Y2; reflexivity|lia]|].
    match goal with A : at_ ?s ?m |- context [read_spec ?s] => apply (okay_bind False _ _ _ _ (i_read s m A)) end. intros [st' [ty p]] D. apply okay_some. cbn [fst] in *. eapply down_le; [exact D|lia].
  - intros [st' [ty p]] (m7 & L7 & A7). cbn [fst] in A7. destruct (existsb _ _); [apply okay_none|]. go. go. destruct (_ =? 0); [apply okay_none|]. apply okay_some. cbn [fst].
    match goal with A : at_ ?s ?m' |- less ?s _ => exists m'; split; [lia|exact A] end.
Qed.
Lemma i_expand st m ents : ~ In "%"%char c -> at_ st m -> okay False (expand st ents) (fun st' => down st' m).
Proof.
  intros Np (s & L & Hs). unfold expand. destruct (inspect_live _ _ _ (s2b "%") L ltac:(sld)) as (st' & v & s' & m' & E & L' & Lm & Hs' & Y & _). rewrite E. cbn [bind].
  destruct (0 <? v); cbn [negb].
  - destruct (Y eq_refl) as (_ & [Es|O]).
    + destruct Np. destruct Hs as [a ->]. rewrite Es. apply in_app_iff. right. left. reflexivity.
    + destruct (until_over true false [s2b ";"] st' s' O) as (st2 & E2 & _). unfold get_until. rewrite E2. apply okay_none.
  - apply okay_some. exists m'. split; [exact Lm|]. exists s'. split; [exact L'|eapply suffix_trans; eassumption].
Qed.
Lemma types_solid : Forall solid (map fst att_types).
Proof. slds. Qed.
Lemma i_type st m : at_ st m -> okay False (att_type st) (fun x => less (fst x) m).
Proof.
  intros A. unfold att_type. destruct (i_which att_types st m None A types_solid) as (st1 & o & -> & D & H). cbn [bind]. destruct o as [ty|]; [|apply okay_none].
  destruct H as [H|H]; [discriminate|]. assert (G : forall t, okay False (Ok (Some (st1, t : at_type))) (fun x => less (fst x) m)) by (intros; apply okay_some; exact H). destruct ty; try apply G.
  clear G D. destruct H as (m1 & L1 & A1). go. destruct o as [[x i]|]; [|apply okay_none]. destruct (enum_total (cstr x) (cstr_nul_free x)) as (l' & ->). cbn [bind]. apply okay_some.
  cbn [fst]. match goal with A : at_ ?s ?m' |- less ?s _ => exists m'; split; [lia|exact A] end.
Qed.
Lemma i_default st m : at_ st m -> okay False (att_default st) (fun x => down (fst x) m).
Proof.
  intros A. unfold att_default. go. destruct o as [d|]; [apply okay_some; cbn [fst]; dn|]. go.
  assert (E : exists st', (if 0 <? v then consume_spaces st1 else Ok st1) = Ok st' /\ down st' m).
  { destruct (0 <? v); [|exists st1; split; [reflexivity|dn]]. clear Y. go. eexists. split; [reflexivity|dn]. }
  destruct E as (st2 & -> & (m2 & L2 & A2)). cbn [bind]. clear Y A A0 A1. go. destruct (0 <? v0) eqn:V0.
  - cbn [bind]. rewrite V0. apply okay_some. cbn [fst]. dn.
  - clear Y A2. go. destruct (0 <? v1); [apply okay_some; cbn [fst]; dn|apply okay_none].
Qed.
Lemma i_quoted st m q : at_ st m -> q = dquote \/ q = s2b "'" ->
  exists st' o, ('(st, o) <- get_until st true [q] ;; Ok (st, match o with Some (x, _) => Some (cstr x) | None => None end)) = Ok (st', o) /\ down st' m.
Proof. intros A [-> | ->]; go; eexists _, _; (split; [reflexivity|dn]). Qed.
Lemma i_value st m : at_ st m -> exists st' o, att_value st = Ok (st', o) /\ down st' m.
Proof.
  intros A. unfold att_value. set (l := [(dquote, Some dquote); (s2b "'", Some (s2b "'"))]). destruct (i_whichv l st m None A ltac:(slds)) as (st1 & o & E & (m1 & L1 & A1)). rewrite E. cbn [bind].
  destruct o as [q|]; [|eexists _, _; split; [reflexivity|dn]]. destruct (i_quoted st1 m1 q A1) as (st2 & o & E2 & D).
  { destruct (which_in l _ _ _ E) as (x & [X|[X|[]]]); injection X as _ <-; auto. }
  rewrite E2. eexists _, _. split; [reflexivity|eapply down_le; eassumption].
Qed.
Lemma i_atts ents : ~ In "%"%char c -> forall n st m decls id idref, at_ st m -> (m < n)%nat -> okay False (att_loop n ents st decls id idref) (fun x => down (fst x) m).
Proof.
  intros Np. induction n as [|n IH]; intros st m decls id idref A Ln; [lia|]. rewrite att_loop_S. go. go. destruct (0 <? v); [apply okay_some; cbn [fst]; dn|].
  clear Y. go. destruct o as [[name i]|]; [|apply okay_none]. clear Y. go.
  match goal with A : at_ ?s ?m |- context [expand ?s ents] => apply (okay_bind False _ _ _ _ (i_expand s m ents Np A)) end. intros st5 (m5 & L5 & A5).
  eapply okay_bind; [apply i_type, A5|]. intros [st6 ty] (m6 & L6 & A6). cbn [fst] in A6. go.
  match goal with A : at_ ?s ?m |- context [att_default ?s] => apply (okay_bind False _ _ _ _ (i_default s m A)) end. intros [st8 df] (m8 & L8 & A8). cbn [fst] in A8.
  destruct (bad_id _ _ _ _); [apply okay_none|]. go.
  match goal with A : at_ ?s ?m |- context [att_value ?s] => destruct (i_value s m A) as (st10 & value & -> & (m10 & L10 & A10)) end. cbn [bind].
  destruct (bad_enum _ _); [apply okay_none|].
  match goal with |- okay _ (att_loop _ _ _ ?d ?i ?r) _ => apply (okay_imp False False _ _ _ (IH _ _ d i r A10 ltac:(lia))) end; [auto|]. intros x D. eapply down_le; [exact D|lia].
Qed.
Lemma i_attlist n st m l : ~ In "%"%char c -> at_ st m -> (m < n)%nat -> okay False (parse_attlist n st l) (fun x => down (fst x) m).
Proof.
  intros Np A Ln. unfold parse_attlist. go. go. destruct o as [[name i]|]; [|apply okay_none]. cbv zeta.
  eapply okay_bind; [match goal with A : at_ ?s ?m |- okay _ (att_loop _ _ ?s _ _ _) _ => apply (i_atts _ Np n s m _ _ _ A ltac:(lia)) end|].
  intros [st' [[ds id] idref]] D. apply okay_some. cbn [fst] in *. eapply down_le; [exact D|lia].
Qed.
Lemma i_entity st m l : at_ st m -> okay False (parse_entity st l) (fun x => less (fst x) m).
Proof.
  intros A. unfold parse_entity. go. go. destruct (0 <? v) eqn:V; [|apply okay_none]. cbn [negb]. destruct (Y eq_refl) as (mm & Lm & Am). clear Y.
  go. go. cbv zeta. clear Y.
  match goal with A : at_ ?s ?m |- context [if 0 <? v0 then consume_spaces ?s else Ok ?s] => assert (E : exists st', (if 0 <? v0 then consume_spaces s else Ok s) = Ok st' /\ down st' m) end.
  { destruct (0 <? v0); [|eexists; split; [reflexivity|dn]]. go. eexists. split; [reflexivity|dn]. }
  destruct E as (st5 & -> & (m5 & L5 & A5)). cbn [bind]. clear A A0 A1 A2. go. destruct o as [[name i]|]; [|apply okay_none]. clear Y. go.
  match goal with |- context [which _ ?x None] => set (ls := x) end.
  match goal with A : at_ ?s ?m |- context [which ?s ls None] => destruct (i_whichv ls s m None A ltac:(slds)) as (st8 & q & E8 & (m8 & L8 & A8)) end. rewrite E8. cbn [bind].
  destruct q as [q|]; [|apply okay_none].
  assert (E9 : exists st9 o, match q with Some q => '(st, o) <- get_until st8 true [q] ;; Ok (st, match o with Some (x, _) => Some (cstr x) | None => None end) | None => Ok (st8, None) end = Ok (st9, o) /\ down st9 m8).
  { destruct q as [q|]; [|eexists _, _; split; [reflexivity|dn]]. apply i_quoted; [exact A8|].
    destruct (which_in ls _ _ _ E8) as (x & [X|[X|[X|[X|[]]]]]); try discriminate X; injection X as _ <-; auto. }
  destruct E9 as (st9 & content & -> & (m9 & L9 & A9)). cbn [bind]. clear A A0 A8 E8. go. go. match goal with |- context [if ?b then _ else _] => destruct b end; [|apply okay_none]. apply okay_some. cbn [fst].
  match goal with A : at_ ?s ?m' |- less ?s _ => exists m'; split; [lia|exact A] end.
Qed.
Lemma i_dtd : ~ In "%"%char c -> forall n st m l it, at_ st m -> 0 <= it <= 3 -> (m + Z.to_nat (3 - it) < n)%nat -> okay False (dtd_loop n st l it) (fun _ => True).
Proof.
  intros Np. induction n as [|n IH]; intros st m l it A Hi Ln; [lia|]. cbn [dtd_loop]. destruct (i_remains st m A) as (st1 & more & -> & (m1 & L1 & A1)). cbn [bind].
  destruct more; cbn [negb]; [|apply okay_some; exact I]. eapply okay_bind; [apply i_comments, A1|]. intros [st2 d] (m2 & L2 & A2). cbn [fst] in A2. clear A A1.
  go. destruct (0 <? v) eqn:V.
  { eapply okay_bind; [match goal with A : at_ ?s ?m |- okay _ (parse_element ?s _) _ => apply (i_element s m l A) end|]. intros [st' l'] (m' & L' & A'). cbn [fst] in A'. apply (IH st' m'); [exact A'|lia|lia]. }
  clear Y. go. destruct (0 <? v0) eqn:V0.
  { destruct (Y eq_refl) as (m4 & L4 & A4). eapply okay_bind; [apply (i_attlist n _ m4 l Np A4); lia|]. intros [st' l'] (m' & L' & A'). cbn [fst] in A'. apply (IH st' m'); [exact A'|lia|lia]. }
  clear Y. go. destruct (0 <? v1) eqn:V1.
  { eapply okay_bind; [match goal with A : at_ ?s ?m |- okay _ (parse_entity ?s _) _ => apply (i_entity s m l A) end|]. intros [st' l'] (m' & L' & A'). cbn [fst] in A'. apply (IH st' m'); [exact A'|lia|lia]. }
  destruct (Z.eqb_spec it 3); [apply okay_none|]. match goal with A : at_ ?s ?m |- okay _ (dtd_loop _ ?s _ _) _ => apply (IH s m); [exact A|lia|lia] end.
Qed.
End Ends.

(** ** more fuel changes nothing *)
Lemma atts_file_mono ents : forall f g st decls id idref o, att_loop f ents st decls id idref = Ok o -> (f <= g)%nat -> att_loop g ents st decls id idref = Ok o.
Proof.
  induction f as [|f IH]; intros g st decls id idref o H L; [discriminate|]. destruct g as [|g]; [lia|]. rewrite att_loop_S in *.
  destruct (consume_spaces st) as [st1| |]; cbn [bind] in *; try exact H. destruct (stream_inspect st1 _) as [[st2 v]| |]; cbn [bind] in *; try exact H.
  destruct (0 <? v); [exact H|]. destruct (get_until st2 _ _) as [[st3 [[x i]|]]| |]; cbn [bind] in *; try exact H.
  destruct (consume_spaces st3) as [st4| |]; cbn [bind] in *; try exact H. destruct (expand st4 ents) as [[st5|]| |]; cbn [bindo] in *; try exact H.
  destruct (att_type st5) as [[[st6 ty]|]| |]; cbn [bindo] in *; try exact H. destruct (consume_spaces st6) as [st7| |]; cbn [bind] in *; try exact H.
  destruct (att_default st7) as [[[st8 df]|]| |]; cbn [bindo] in *; try exact H. destruct (bad_id _ _ _ _); [exact H|].
  destruct (consume_spaces st8) as [st9| |]; cbn [bind] in *; try exact H. destruct (att_value st9) as [[st10 v10]| |]; cbn [bind] in *; try exact H.
  destruct (bad_enum _ _); [exact H|]. apply IH; [exact H|lia].
Qed.
Lemma attlist_file_mono f g st l o : parse_attlist f st l = Ok o -> (f <= g)%nat -> parse_attlist g st l = Ok o.
Proof.
  unfold parse_attlist. intros H L. destruct (consume_spaces st) as [st1| |]; cbn [bind] in *; try exact H. destruct (get_until st1 _ _) as [[st3 [[x i]|]]| |]; cbn [bind] in *; try exact H.
  match type of H with bindo (att_loop f ?e ?s ?d ?i ?r) _ = _ => destruct (att_loop f e s d i r) as [o1| |] eqn:E; cbn [bindo] in H; try discriminate; rewrite (atts_file_mono _ _ g _ _ _ _ _ E L) end.
  exact H.
Qed.
Lemma dtd_file_mono : forall f g st l it o, dtd_loop f st l it = Ok o -> (f <= g)%nat -> dtd_loop g st l it = Ok o.
Proof.
  induction f as [|f IH]; intros g st l it o H L; [discriminate|]. destruct g as [|g]; [lia|]. cbn [dtd_loop] in *.
  destruct (stream_remains st) as [[st1 more]| |]; cbn [bind] in *; try exact H. destruct (negb more); [exact H|].
  destruct (consume_comments st1 pdoc_new) as [[[st2 d]|]| |]; cbn [bindo] in *; try exact H.
  destruct (stream_peek st2 _) as [[st3 v]| |]; cbn [bind] in *; try exact H. destruct (0 <? v).
  { destruct (parse_element st3 l) as [[[st4 l4]|]| |]; cbn [bindo] in *; try exact H. apply IH; [exact H|lia]. }
  destruct (stream_inspect st3 _) as [[st4 v4]| |]; cbn [bind] in *; try exact H. destruct (0 <? v4).
  { destruct (parse_attlist f st4 l) as [o2| |] eqn:E; cbn [bindo] in H; try discriminate. rewrite (attlist_file_mono f g _ _ _ E) by lia.
    destruct o2 as [[st5 l5]|]; cbn [bindo] in *; [|exact H]. apply IH; [exact H|lia]. }
  destruct (stream_peek st4 _) as [[st5 v5]| |]; cbn [bind] in *; try exact H. destruct (0 <? v5).
  { destruct (parse_entity st5 l) as [[[st6 l6]|]| |]; cbn [bindo] in *; try exact H. apply IH; [exact H|lia]. }
  destruct (it =? 3); [exact H|]. apply IH; [exact H|lia].
Qed.

Definition loop_file (content : bytes) (fuel : nat) (o : option load) : Prop :=
  match o with
  | None => (st <- stream_file content ;; dtd_loop fuel st load_new 0) = Ok None
  | Some l => exists st', (st <- stream_file content ;; dtd_loop fuel st load_new 0) = Ok (Some (st', l))
  end.
Theorem load_file_ends content : ~ In "%"%char content ->
  exists o, (forall fuel, (length content + 5 <= fuel)%nat -> loop_file content fuel o) /\
    ((forall l, o = Some l -> acyclic (l_elements l)) -> exists n r, forall fuel, (n <= fuel)%nat -> dtd_parse_file fuel content = Ok r).
Proof.
  intros N. destruct (file_start content) as (st & w & f & k & E & Nm & _ & _ & Ec).
  assert (A : at_ content st (length content + FsafeProofs.open f)).
  { exists content. split; [left; exists (FsafeProofs.open f); split; [exists w, f; auto|reflexivity]|apply suffix_refl]. }
  set (n := (length content + 5)%nat).
  assert (Lo : (FsafeProofs.open f <= 1)%nat) by (destruct f; cbn; lia).
  destruct (i_dtd content N n st _ load_new 0 A ltac:(lia) ltac:(subst n; change (Z.to_nat (3 - 0)) with 3%nat; lia)) as [[_ []]|(o & Eo & _)].
  assert (E2 : forall fuel, (n <= fuel)%nat -> dtd_loop fuel st load_new 0 = Ok o) by (intros fuel L; exact (dtd_file_mono n fuel _ _ _ _ Eo L)).
  assert (E3 : forall fuel, (n <= fuel)%nat -> dtd_parse_file fuel content = match o with Some (_, l) => finish fuel l | None => Ok None end).
  { intros fuel L. unfold dtd_parse_file. rewrite E. cbn [bind]. unfold parse_common. rewrite (E2 fuel L). destruct o as [[st' l]|]; reflexivity. }
  exists (match o with Some (_, l) => Some l | None => None end). split.
  - intros fuel L. unfold loop_file. rewrite E. cbn [bind]. rewrite (E2 fuel L). destruct o as [[st' l]|]; [exists st'|]; reflexivity.
  - intros Ac. destruct o as [[st' l]|]; [|exists n, None; exact E3]. specialize (Ac l eq_refl). destruct (l_elements l) as [|e es] eqn:El.
    + eexists n, _. intros fuel L. rewrite (E3 fuel L). unfold finish. rewrite El. cbn [bind].
      instantiate (1 := if negb (l_id l) && l_idref l then None else Some (Dtd [] (l_attrs l) None (l_id l) (l_idref l), l_entities l)). destruct (_ && _); reflexivity.
    + destruct (new_root_ends (e :: es)) as (k' & R); [discriminate|exact Ac|].
      destruct (R k' k' (le_n k') (le_n k')) as (r & Er & _).
      assert (Rm : forall fuel, (k' <= fuel)%nat -> new_root fuel fuel (e :: es) = Ok r).
      { intros fuel L. unfold new_root in *. exact (root_mono _ _ _ _ _ _ _ Er L L). }
      eexists (n + k')%nat, _. intros fuel L. rewrite (E3 fuel) by lia. unfold finish. rewrite El, (Rm fuel) by lia. cbn [bind].
      instantiate (1 := if negb (l_id l) && l_idref l then None else Some (Dtd (e :: es) (l_attrs l) (Some r) (l_id l) (l_idref l), l_entities l)). destruct (_ && _); reflexivity.
Qed.
