(** The book of the blocks: what each operation does to it (C60). *)
From Coq Require Import Permutation.
From Verif Require Import Prelude StrModel AttrModel TreeModel StreamModel.
From Verif Require Import RepModel RepSpec.
From Coq Require Import Lia.
Open Scope Z_scope.

(** the blocks taken are those of [l] *)
Definition exact (m : book) (l : list nat) : Prop :=
  Permutation (live m) l /\ NoDup (live m) /\ Forall (fun b => (b < next m)%nat) (live m).
Lemma exact_perm m l l' : Permutation l l' -> exact m l -> exact m l'.
Proof. intros P (A & B & C). split; [|split]; trivial. eapply Permutation_trans; eauto. Qed.

Lemma take_exact m l : exact m l -> exact (fst (take m)) (next m :: l).
Proof.
  intros (A & B & C). unfold take; cbn. split; [|split]; cbn.
  - now constructor.
  - constructor; trivial. intro H. pose proof (proj1 (Forall_forall _ _) C _ H). cbn in *. lia.
  - constructor; [lia|]. eapply Forall_impl; [|exact C]. cbn. intros; lia.
Qed.

Lemma remove_notin b l : ~ In b l -> remove Nat.eq_dec b l = l.
Proof.
  induction l as [|x l IH]; cbn; trivial. intro N. destruct (Nat.eq_dec b x) as [->|H]; [tauto|].
  f_equal. apply IH. tauto.
Qed.
Lemma remove_perm b l l' : Permutation l (b :: l') -> NoDup l -> Permutation (remove Nat.eq_dec b l) l'.
Proof.
  intros P N. assert (N' : NoDup (b :: l')) by (eapply Permutation_NoDup; eauto).
  inversion N' as [|? ? Nb Nl]; subst.
  assert (In b l) as H by (eapply Permutation_in; [apply Permutation_sym; exact P|now left]).
  apply in_split in H as (l1 & l2 & ->).
  assert (Nb2 : ~ In b (l1 ++ l2)) by (apply NoDup_remove_2; trivial).
  rewrite remove_app. cbn. destruct (Nat.eq_dec b b) as [_|E]; [|now destruct E].
  rewrite !remove_notin by (intro H; apply Nb2; apply in_or_app; tauto).
  eapply Permutation_cons_inv with (a := b). eapply Permutation_trans; [apply Permutation_middle|exact P].
Qed.
Lemma remove_nodup b l : NoDup l -> NoDup (remove Nat.eq_dec b l).
Proof.
  induction 1 as [|x l N D IH]; cbn; [constructor|]. destruct (Nat.eq_dec b x); trivial. constructor; trivial.
  intro H. apply in_remove in H. tauto.
Qed.
Lemma live_in m b l : exact m l -> In b l -> existsb (Nat.eqb b) (live m) = true.
Proof.
  intros (P & _) H. apply existsb_exists. exists b. split; [|apply Nat.eqb_refl].
  eapply Permutation_in; [apply Permutation_sym; exact P|trivial].
Qed.
Lemma release_exact m b l : exact m (b :: l) -> exists L, release m b = Ok (with_live m L (next m)) /\ exact (with_live m L (next m)) l.
Proof.
  intros E. unfold release. rewrite (live_in m b _ E) by now left.
  eexists; split; [reflexivity|]. destruct E as (P & N & F). split; [|split]; cbn.
  - now apply remove_perm.
  - now apply remove_nodup.
  - apply Forall_forall. intros x H. apply in_remove in H. apply (proj1 (Forall_forall _ _) F). tauto.
Qed.
Lemma releases_exact : forall bs m l, exact m (bs ++ l) ->
  exists L, releases m bs = Ok (with_live m L (next m)) /\ exact (with_live m L (next m)) l.
Proof.
  induction bs as [|b bs IH]; intros m l E; cbn [releases app] in *.
  - exists (live m). destruct m; split; trivial.
  - destruct (release_exact _ _ _ E) as (L & R & E1). rewrite R. cbn [bind].
    destruct (IH _ _ E1) as (L' & R' & E2). rewrite R'. exists L'. split; trivial.
Qed.

(** blocks behind pointers *)
Definition heap_of (p : option ptr) : list nat := match p with Some (Heap b) => [b] | _ => [] end.
Definition opt_of (o : option nat) : list nat := match o with Some b => [b] | None => [] end.

(** the parser is at work: [p] is the last chunk, [extra] are blocks held by the function
    being executed *)
Record idle (w b : bool) (p : option ptr) (m : book) (extra : list nat) : Prop := Idle {
  i_exact : exact m (own m ++ heap_of p ++ document m ++ extra);
  i_last : last m = p;
  i_pool : pool m = b;
  i_near : near m = None;
  i_follow : follow m = None;
  i_linked : linked m = true;
  i_wanted : wanted m = w;
  i_reports : reports m = [];
  i_own : own m <> [];
  i_doc : document m <> [] }.

Definition blocks_of (m : book) : list nat := concat (map r_blocks (reports m)).
(** the place an error tells is inside the text, [sz] bytes long *)
(** it gave up; [k] tells whether the stream is a file *)
Definition dead (w k : bool) (sz : bytes) (m : book) : Prop :=
  exists lost, exact m (blocks_of m ++ lost) /\ document m = [] /\ own m = [] /\ last m = None /\ near m = None /\ follow m = None /\
    (length lost <= 1)%nat /\
    if w then exists r, reports m = [r] /\ r_code r < 0 /\ (k = false -> place_in sz r) /\ (lost <> [] -> r_code r = -2 /\ r_text r = no_name)
    else reports m = [].

Lemma touch_ok m l : own m <> [] -> exact m (own m ++ l) -> touch m = Ok tt.
Proof.
  intros N E. unfold touch. destruct (own m) as [|a r] eqn:O; [congruence|].
  rewrite (live_in _ a _ E); [reflexivity|now left].
Qed.
Lemma idle_touch w b p m e : idle w b p m e -> touch m = Ok tt.
Proof. intros [E _ _ _ _ _ _ _ O _]. eapply touch_ok; eauto. Qed.

Lemma set_alloc_ok w b p m e c : idle w b p m e -> exists m', set_alloc m c = Ok m' /\ idle w c p m' e.
Proof.
  intros H. unfold set_alloc. rewrite (idle_touch _ _ _ _ _ H). eexists; split; [reflexivity|].
  destruct H; constructor; trivial.
Qed.
Lemma nullify_ok w b p m e : idle w b p m e -> exists m', nullify m = Ok m' /\ idle w b None m' (heap_of p ++ e).
Proof.
  intros H. unfold nullify. rewrite (idle_touch _ _ _ _ _ H). eexists; split; [reflexivity|].
  destruct H as [E L P N F K W R O D]; constructor; trivial. cbn [own document with_last heap_of app] in *.
  eapply exact_perm; [|exact E]. apply Permutation_app_head.
  rewrite !app_assoc. apply Permutation_app_tail. apply Permutation_app_comm.
Qed.
Lemma release_chunk_ok w b p m e : idle w b p m e -> p <> Some Pool -> exists m', release_chunk m = Ok m' /\ idle w b None m' e.
Proof.
  intros H Np. unfold release_chunk. rewrite (i_last _ _ _ _ _ H).
  destruct p as [[x|]|]; [|congruence|].
  - destruct (release_exact m x (own m ++ document m ++ e)) as (L & R & E).
    { eapply exact_perm; [|exact (i_exact _ _ _ _ _ H)]. apply Permutation_sym, Permutation_middle. }
    rewrite R. cbn [bind]. eexists; split; [reflexivity|]. destruct H; constructor; trivial.
  - exists m; split; trivial.
Qed.
Lemma take_idle w b p m e : idle w b p m e -> idle w b p (fst (take m)) (next m :: e) /\ snd (take m) = next m.
Proof.
  intros [E L P N F K W R O D]. split; trivial. constructor; trivial.
  eapply exact_perm; [|exact (take_exact _ _ E)]. cbn [own document take fst with_live].
  rewrite !app_assoc. apply Permutation_middle.
Qed.
Lemma release_idle w b p m x e : idle w b p m (x :: e) -> exists m', release m x = Ok m' /\ idle w b p m' e.
Proof.
  intros H. destruct (release_exact m x (own m ++ heap_of p ++ document m ++ e)) as (L & R & E).
  { eapply exact_perm; [|exact (i_exact _ _ _ _ _ H)]. rewrite !app_assoc. apply Permutation_sym, Permutation_middle. }
  rewrite R. eexists; split; [reflexivity|]. destruct H; constructor; trivial.
Qed.

Lemma take_until_ok w b p m e st a c st' o : idle w b p m e -> p <> Some Pool -> get_until st a c = Ok (st', o) ->
  exists m' p', take_until m st a c = Ok (m', st', o) /\ idle w b p' m' e /\
    match o with
    | None => m' = m /\ p' = p
    | Some _ => if b then p' = Some Pool else exists x, p' = Some (Heap x)
    end.
Proof.
  intros H Np G. unfold take_until. rewrite (idle_touch _ _ _ _ _ H). cbn [bind]. rewrite G. cbn [bind].
  destruct o as [x|].
  - destruct (release_chunk_ok _ _ _ _ _ H Np) as (m1 & R & H1). rewrite R. cbn [bind].
    rewrite (i_pool _ _ _ _ _ H1). destruct b.
    + eexists _, _. split; [reflexivity|]. split; [|reflexivity]. destruct H1; constructor; try reflexivity; trivial.
    + destruct (take_idle _ _ _ _ _ H1) as (H2 & _). unfold take in *. cbn [fst snd] in *.
      eexists _, _. split; [reflexivity|]. split; [|eexists; reflexivity].
      destruct H2; constructor; try reflexivity; trivial. cbn in *. eapply exact_perm; [|eassumption].
      rewrite !app_assoc. apply Permutation_sym. rewrite <- !app_assoc. cbn.
      apply Permutation_app_head. apply Permutation_cons_app. reflexivity.
  - eexists _, _. split; [reflexivity|]. split; [exact H|tauto].
Qed.

(** whether a terminator is found does not depend on how the text is handed out *)
Lemma until_ref_same : forall f st c a i r g,
  match until_loop f st c a false i r g with
  | Ok _ => True
  | UB => until_loop f st c a true i r g = UB
  | NoFuel => until_loop f st c a true i r g = NoFuel
  end.
Proof.
  assert (R : forall st a i n t, match until_result st a false i n t with Ok _ => True | UB => until_result st a true i n t = UB | NoFuel => until_result st a true i n t = NoFuel end).
  { intros. unfold until_result. destruct (mem_sub (s_buf st) (s_idx st) i); cbn [bind andb]; trivial. }
  induction f as [|f IH]; intros st c a i r g; [reflexivity|]. cbn [until_loop].
  match goal with |- match bind ?e _ with _ => _ end => destruct e as [[[[st1 go] i1] r1]| |] end; cbn [bind]; trivial.
  destruct go; cbn [bind]; trivial.
  destruct (match_at c (s_buf st1) (s_size st1) (s_idx st1 + i1)) as [[[it n]|]| |]; cbn [bind]; trivial.
  - destruct ((n <? max_length c) && (s_idx st1 + i1 + n =? s_size st1)).
    + destruct (prebuffer st1) as [[st2 more]| |]; cbn [bind]; trivial. destruct more; [apply IH|apply R].
    + apply R.
  - apply IH.
Qed.
Lemma take_until_ref_ok w b p m e st a c st' o : idle w b p m e -> p <> Some Pool -> get_until_ref st a c = Ok (st', o) ->
  exists m' p', take_until_ref m st a c = Ok (m', st', o) /\ idle w b p' m' e /\ p' <> Some Pool.
Proof.
  intros H Np G. unfold take_until_ref. rewrite (idle_touch _ _ _ _ _ H). cbn [bind].
  pose proof (until_ref_same (turns st) st c a 0 (s_size st - s_idx st) false) as S.
  fold (get_until st a c) in S. fold (get_until_ref st a c) in S.
  destruct (get_until st a c) as [[st1 o1]| |]; [|congruence|congruence].
  cbn [bind]. rewrite G. cbn [bind]. destruct o1 as [x|]; cbn [bind].
  - destruct (release_chunk_ok _ _ _ _ _ H Np) as (m1 & R & H1). rewrite R. cbn [bind].
    eexists _, _. split; [reflexivity|]. split; [exact H1|discriminate].
  - eexists _, _. split; [reflexivity|]. split; [exact H|trivial].
Qed.
Lemma take_until_bad m st a c : touch m = Ok tt ->
  match get_until st a c with Ok _ => True | UB => take_until m st a c = UB | NoFuel => take_until m st a c = NoFuel end.
Proof. intros T. unfold take_until. rewrite T. cbn [bind]. destruct (get_until st a c); cbn [bind]; trivial. Qed.
Lemma take_until_ref_bad m st a c : touch m = Ok tt ->
  match get_until_ref st a c with Ok _ => True | UB => take_until_ref m st a c = UB | NoFuel => take_until_ref m st a c = NoFuel end.
Proof.
  intros T. unfold take_until_ref. rewrite T. cbn [bind].
  pose proof (until_ref_same (turns st) st c a 0 (s_size st - s_idx st) false) as S.
  fold (get_until st a c) in S. fold (get_until_ref st a c) in S.
  destruct (get_until_ref st a c); trivial; destruct (get_until st a c) as [[st1 o1]| |]; cbn [bind]; try congruence; auto.
Qed.
