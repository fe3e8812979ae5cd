(** The parser with Babel: the name of the encoding does not matter for the rest, and the
    conversion does not change the comments before it. *)
From Coq Require Import NArith.
From Verif Require Import Prelude Arr StrModel StrSpec StrProofs EscProofs StrProofs2 StrProofs3 AttrModel TreeModel
  StreamModel StreamProofs ParseModel ParseProofs ParseProofs2 XmlSpec GramProofs GramProofs2 GramProofs3
  BabelModel BabelTables BabelPoints BabelSpec BabelExec BabelProofs BabelProofs2 BabelProofs3
  BdocModel BdocSpec BdocProofs BdocProofs2 BdocProofs3.
Open Scope Z_scope.
Open Scope list_scope.

(** ** the name of the encoding *)
Notation enc d e := (with_encoding d (Some e)).
Lemma enc_item d e i : add_item (enc d e) i = enc (add_item d i) e.
Proof. destruct d. unfold add_item, with_encoding, with_stack. cbn. destruct p_stack; reflexivity. Qed.
Lemma enc_pi d e p : add_pi (enc d e) p = enc (add_pi d p) e.
Proof. destruct d. unfold add_pi, add_item, with_encoding, with_stack, with_pis. cbn. destruct p_stack; reflexivity. Qed.
Lemma enc_node d e n : add_node (enc d e) n = enc (add_node d n) e.
Proof. destruct d. unfold add_node, add_item, with_encoding, with_stack, with_root. cbn. destruct p_stack; reflexivity. Qed.
Lemma enc_preserve d e l : with_preserve (enc d e) l = enc (with_preserve d l) e.
Proof. destruct d. reflexivity. Qed.
Lemma enc_stack d e l : with_stack (enc d e) l = enc (with_stack d l) e.
Proof. destruct d. reflexivity. Qed.
Lemma enc_header d e : with_header (enc d e) = enc (with_header d) e.
Proof. destruct d. reflexivity. Qed.
Lemma enc_closed n r d e : closed n r (enc d e) = enc (closed n r d) e.
Proof. unfold closed. rewrite enc_stack, enc_node. generalize (add_node (with_stack d r) n). intros []. reflexivity. Qed.
Definition emap (e : bytes) (o : option (bytes * pdoc)) : option (bytes * pdoc) := match o with None => None | Some (s, d) => Some (s, enc d e) end.
Lemma enc_a_pi s d e : a_pi s (enc d e) = emap e (a_pi s d).
Proof.
  unfold a_pi. destruct (after _ s); [|reflexivity]. destruct (until _ _) as [[[[t it] x] s1]|]; [|reflexivity]. destruct (bytes_eqb _ _); [reflexivity|].
  destruct (_ || _); [rewrite enc_pi; reflexivity|]. destruct (it =? 2); [|reflexivity]. destruct (until _ _) as [[[[c i2] x2] s2]|]; [rewrite enc_pi|]; reflexivity.
Qed.
Lemma enc_comments : forall n s d e, (length s <= n)%nat -> a_comments s (enc d e) = emap e (a_comments s d).
Proof.
  induction n as [|n IH]; intros s d e L; rewrite !a_comments_eq.
  - destruct s; [|cbn in L; lia]. cbn [skip a_comment after]. change (p_header (enc d e)) with (p_header d). cbn. destruct (p_header d); reflexivity.
  - pose proof (skip_len s) as Ks. unfold a_comment. destruct (after (s2b "<!--") (skip s)) as [s1|] eqn:A1.
    + pose proof (after_shorter (s2b "<!--") _ _ ltac:(discriminate) A1). destruct (until _ s1) as [[[[t it] x] s2]|] eqn:U; [|reflexivity]. destruct t as [|c t]; [reflexivity|].
      pose proof (until_shorter [s2b "-->"] s1 _ _ _ _ ltac:(gc) U). pose proof (skip_len s2). rewrite enc_item.
      change (p_header (enc (add_item d (IComment (c :: t))) e)) with (p_header (add_item d (IComment (c :: t)))).
      destruct (if p_header _ then _ else None) as [y|] eqn:P; [|apply IH; lia]. destruct (p_header _); [|discriminate].
      rewrite enc_a_pi. destruct (a_pi (skip s2) _) as [[s3 d3]|] eqn:Q; cbn [emap]; [|reflexivity]. pose proof (a_pi_len _ _ _ _ _ Q P). apply IH. lia.
    + change (p_header (enc d e)) with (p_header d). destruct (if p_header d then _ else None) as [y|] eqn:P; [|reflexivity]. destruct (p_header d); [|discriminate].
      rewrite enc_a_pi. destruct (a_pi _ _) as [[s3 d3]|] eqn:Q; cbn [emap]; [|reflexivity]. pose proof (a_pi_len _ _ _ _ _ Q P). rewrite skip_skip in *. apply IH. lia.
Qed.
Lemma enc_a_attrs : forall f s d e a, a_attrs f s (enc d e) a = match a_attrs f s d a with None => None | Some (s, d, a, b) => Some (s, enc d e, a, b) end.
Proof.
  induction f as [|f IH]; intros s d e a; cbn [a_attrs]; [reflexivity|]. destruct (after _ s); [reflexivity|]. destruct (after _ s); [reflexivity|].
  destruct (until _ _) as [[[[t it] x] s1]|]; [|reflexivity]. destruct (cstr t); [reflexivity|]. destruct (a_quote s1) as [[q s2]|]; [|reflexivity].
  destruct (a_value q s2) as [v s3]. destruct (a_has _ _); [reflexivity|]. change (p_preserve (enc d e)) with (p_preserve d). destruct (a_preserve _ _ _); [|reflexivity].
  rewrite enc_preserve. apply IH.
Qed.
Lemma enc_a_node s d e : a_node s (enc d e) = match a_node s d with None => None | Some (s, d, b) => Some (s, enc d e, b) end.
Proof.
  unfold a_node. rewrite (enc_comments (length s)) by lia. destruct (a_comments s d) as [[s1 d1]|]; cbn [emap]; [|reflexivity].
  destruct (match after (s2b "<") s1 with Some s => Some s | None => _ end) as [s2|]; [|reflexivity].
  destruct (until _ s2) as [[[[t it] x] s3]|]; [|reflexivity]. destruct (cstr t) as [|c name]; [reflexivity|].
  destruct (it =? 1).
  - rewrite enc_a_attrs. destruct (a_attrs _ _ d1 _) as [[[[s4 d4] a4] []]|]; [| |reflexivity].
    + rewrite enc_node. reflexivity.
    + rewrite enc_stack. reflexivity.
  - destruct (Ascii.eqb _ _); [rewrite enc_node|rewrite enc_stack]; reflexivity.
Qed.
Lemma enc_a_content : forall f s d e, a_content f s (enc d e) = emap e (a_content f s d).
Proof.
  induction f as [|f IH]; intros s d e; cbn [a_content]; [reflexivity|]. destruct s as [|c s0] eqn:Es; [reflexivity|]. rewrite <- Es. clear Es c s0.
  change (p_preserve (enc d e)) with (p_preserve d). cbv zeta. set (s1 := if hd false (p_preserve d) then s else skip s). clearbody s1.
  destruct (starts _ s1 || starts _ s1).
  - rewrite (enc_comments (length s1)) by lia. destruct (a_comments s1 d) as [[s2 d2]|]; cbn [emap]; [apply IH|reflexivity].
  - destruct (after (s2b "</") s1) as [s2|].
    + change (a_close s2 (enc d e)) with (a_close s2 d). destruct (a_close s2 d) as [s3|]; [|reflexivity]. change (ParseModel.p_stack (enc d e)) with (p_stack d).
      destruct (p_stack d) as [|n [|n' r]]; [reflexivity| |]; rewrite enc_closed; [reflexivity|apply IH].
    + destruct (after (s2b "<![CDATA[") s1) as [s2|]; [destruct (until _ s2) as [[[[t it] x] s3]|]; [rewrite enc_item; apply IH|reflexivity]|].
      destruct (after (s2b "<") s1) as [s2|].
      * rewrite enc_a_node. destruct (a_node s2 d) as [[[s3 d3] b]|]; [apply IH|reflexivity].
      * destruct (until _ s) as [[[[t it] x] s3]|]; [rewrite enc_item; apply IH|reflexivity].
Qed.
Lemma enc_tail s d e : b_tail s (enc d e) = match b_tail s d with None => None | Some r => Some (recoded e r) end.
Proof.
  unfold b_tail. assert (Dt : a_doctype s (enc d e) = emap e (a_doctype s d)).
  { unfold a_doctype. destruct (after _ s); [|reflexivity]. apply (enc_comments _ _ _ _ (le_n _)). }
  rewrite Dt. destruct (a_doctype s d) as [[s1 d1]|]; cbn [emap]; [|reflexivity].
  assert (Db : a_body s1 (enc d1 e) = emap e (a_body s1 d1)).
  { unfold a_body. rewrite enc_header, enc_a_node. destruct (a_node s1 (with_header d1)) as [[[s2 d2] []]|]; [reflexivity|apply enc_a_content|reflexivity]. }
  rewrite Db. destruct (a_body s1 d1) as [[s2 d2]|]; cbn [emap]; [|reflexivity]. unfold a_done. change (p_stack (enc d2 e)) with (p_stack d2). destruct (p_stack d2); reflexivity.
Qed.

(** ** the conversion and ASCII *)
Definition clean_byte (t : table) (c : ascii) : bool :=
  if (N_of_ascii c <? 128)%N then bytes_eqb (written t c) [c]
  else negb (match written t c with [] => true | _ => false end) && forallb (fun b => (128 <=? N_of_ascii b)%N || Ascii.eqb b NUL) (written t c).
Definition all_bytes : bytes := map (fun n => ascii_of_nat n) (seq 0 256).
Lemma in_all_bytes c : In c all_bytes.
Proof. unfold all_bytes. apply in_map_iff. exists (nat_of_ascii c). split; [apply ascii_nat_embedding|]. apply in_seq. pose proof (nat_ascii_bounded c). lia. Qed.
Lemma tables_clean : forallb (fun p => forallb (clean_byte (snd p)) all_bytes) encodings = true.
Proof. vm_compute. reflexivity. Qed.
Definition clean (t : table) : Prop := forall c,
  ((N_of_ascii c < 128)%N -> written t c = [c]) /\
  ((128 <= N_of_ascii c)%N -> written t c <> [] /\ Forall (fun b => (128 <= N_of_ascii b)%N \/ b = NUL) (written t c)).
Lemma encodings_clean name t : In (name, t) encodings -> clean t.
Proof.
  intros H c. pose proof (proj1 (forallb_forall _ _) tables_clean _ H) as X. cbn [snd] in X. pose proof (proj1 (forallb_forall _ _) X c (in_all_bytes c)) as Y.
  unfold clean_byte in Y. destruct (N.ltb_spec (N_of_ascii c) 128) as [L|L]; split; intros K; try lia.
  - apply bytes_eqb_eq, Y.
  - apply andb_true_iff in Y. destruct Y as [Y1 Y2]. split; [intros E; rewrite E in Y1; discriminate|].
    rewrite forallb_forall in Y2. apply Forall_forall. intros b I. apply Y2, orb_true_iff in I. destruct I as [I|I]; [left; apply N.leb_le, I|right; apply Ascii.eqb_eq, I].
Qed.

(** chunks of ASCII without NUL *)
Definition plain_byte (c : ascii) : Prop := (0 < N_of_ascii c < 128)%N.
Section Commute.
Context (t : table) (Ht : clean t).
Notation tr := (transcode t).
Lemma tr_ascii c s : (N_of_ascii c < 128)%N -> tr (c :: s) = c :: tr s.
Proof. intros L. rewrite transcode_cons, (proj1 (Ht c) L). reflexivity. Qed.
Lemma tr_high c s : (128 <= N_of_ascii c)%N -> exists b l, written t c = b :: l /\ tr (c :: s) = b :: l ++ tr s /\ Forall (fun b => (128 <= N_of_ascii b)%N \/ b = NUL) (b :: l).
Proof.
  intros L. destruct (proj2 (Ht c) L) as [N F]. rewrite transcode_cons. destruct (written t c) as [|b l]; [contradiction|]. exists b, l. auto.
Qed.
Lemma high_not b k : (128 <= N_of_ascii b)%N \/ b = NUL -> plain_byte k -> k <> b.
Proof. unfold plain_byte. intros [H|H] P E; subst; [lia|]. change (N_of_ascii NUL) with 0%N in P. lia. Qed.
Lemma tr_len s : (length s <= length (tr s))%nat.
Proof.
  induction s as [|c s IH]; [cbn; lia|]. destruct (N.lt_ge_cases (N_of_ascii c) 128) as [L|L].
  - rewrite tr_ascii by exact L. cbn. lia.
  - destruct (tr_high c s L) as (b & l & _ & -> & _). cbn. rewrite app_length. lia.
Qed.
Lemma tr_nil s : tr s = [] -> s = [].
Proof. intros H. pose proof (tr_len s) as L. rewrite H in L. destruct s; [reflexivity|cbn in L; lia]. Qed.
Lemma tr_after k : Forall plain_byte k -> forall s, after k (tr s) = match after k s with None => None | Some r => Some (tr r) end.
Proof.
  induction 1 as [|x k Px F IH]; intros s; [reflexivity|]. destruct s as [|c s]; [reflexivity|]. destruct (N.lt_ge_cases (N_of_ascii c) 128) as [L|L].
  - rewrite tr_ascii by exact L. cbn [after]. destruct (Ascii.eqb x c); [apply IH|reflexivity].
  - destruct (tr_high c s L) as (b & l & _ & -> & Fb). apply Forall_inv in Fb. rewrite after_ne by (apply high_not; assumption).
    rewrite after_ne; [reflexivity|]. apply high_not; [left; exact L|exact Px].
Qed.
Lemma ws_ascii c : is_ws c = true -> plain_byte c.
Proof. intros H. unfold plain_byte. destruct c as [[] [] [] [] [] [] [] []]; try discriminate H; cbn; lia. Qed.
Lemma tr_skip s : skip (tr s) = tr (skip s).
Proof.
  induction s as [|c s IH]; [reflexivity|]. destruct (N.lt_ge_cases (N_of_ascii c) 128) as [L|L].
  - rewrite tr_ascii by exact L. cbn [skip]. destruct (is_ws c); [exact IH|]. rewrite tr_ascii by exact L. reflexivity.
  - destruct (tr_high c s L) as (b & l & _ & E & Fb). cbn [skip]. destruct (is_ws c) eqn:W; [apply ws_ascii in W; unfold plain_byte in W; lia|]. rewrite E. cbn [skip].
    destruct (is_ws b) eqn:W2; [|reflexivity]. apply ws_ascii in W2. apply Forall_inv in Fb. exfalso. exact (high_not b b Fb W2 eq_refl).
Qed.
Lemma stop_one k s : ws_chunk k = false -> stop_at [k] s = match after k s with Some _ => Some (0, length k) | None => None end.
Proof. intros W. unfold stop_at. cbn [existsb hit]. rewrite W. reflexivity. Qed.
Lemma tr_until k : Forall plain_byte k -> k <> [] -> ws_chunk k = false -> forall s,
  until [k] (tr s) = match until [k] s with None => None | Some (x, it, a, b) => Some (tr x, it, tr a, tr b) end.
Proof.
  intros F Nk W. destruct k as [|k0 k]; [contradiction|]. pose proof (Forall_inv F) as P0.
  assert (Sk : forall l s, Forall (fun b => (128 <= N_of_ascii b)%N \/ b = NUL) l ->
     until [k0 :: k] (l ++ s) = match until [k0 :: k] s with None => None | Some (x, it, a, b) => Some (l ++ x, it, a, b) end).
  { intros l s Fl. induction Fl as [|b l Hb Fl IH]; cbn [app]; [destruct (until _ s) as [[[[? ?] ?] ?]|]; reflexivity|]. cbn [until].
    rewrite stop_one by exact W. rewrite after_ne by (apply high_not; assumption). rewrite IH. destruct (until _ s) as [[[[? ?] ?] ?]|]; reflexivity. }
  induction s as [|c s IH]; [reflexivity|]. cbn [until]. rewrite stop_one by exact W. pose proof (tr_after (k0 :: k) F (c :: s)) as Af.
  destruct (N.lt_ge_cases (N_of_ascii c) 128) as [L|L].
  - rewrite tr_ascii in Af |- * by exact L. cbn [until]. rewrite stop_one by exact W. rewrite Af. destruct (after (k0 :: k) (c :: s)) as [r|] eqn:A1.
    + rewrite <- (tr_ascii c s L). change (tr []) with (@nil ascii). f_equal. f_equal.
      apply after_Some in A1. rewrite A1. assert (E : tr ((k0 :: k) ++ r) = (k0 :: k) ++ tr r).
      { pose proof (tr_after (k0 :: k) F ((k0 :: k) ++ r)) as X. rewrite after_app in X. apply after_Some in X. exact X. }
      rewrite E, !skipn_app, !skipn_all, !Nat.sub_diag. reflexivity.
    + rewrite IH. destruct (until _ s) as [[[[x it] a] b]|]; [|reflexivity]. rewrite tr_ascii by exact L. reflexivity.
  - assert (A1 : after (k0 :: k) (c :: s) = None) by (apply after_ne, high_not; [left; exact L|exact P0]). rewrite A1.
    destruct (tr_high c s L) as (b & l & Ew & E & Fb). rewrite E. change (b :: l ++ tr s) with ((b :: l) ++ tr s). rewrite (Sk _ _ Fb), IH.
    destruct (until _ s) as [[[[x it] a] b']|]; [|reflexivity]. rewrite (transcode_cons t c x), Ew. reflexivity.
Qed.
Lemma plain_lit k : forallb (fun c => (0 <? N_of_ascii c)%N && (N_of_ascii c <? 128)%N) k = true -> Forall plain_byte k.
Proof.
  intros H. rewrite forallb_forall in H. apply Forall_forall. intros c I. apply H, andb_true_iff in I. destruct I as [I1 I2]. unfold plain_byte. apply N.ltb_lt in I1, I2. lia.
Qed.
Lemma tr_comments : forall n s d, (length s <= n)%nat -> p_header d = false -> p_stack d = [] ->
  a_comments (tr s) d = match a_comments s d with None => None | Some (s, d) => Some (tr s, d) end.
Proof.
  induction n as [|n IH]; intros s d L Hh Hs; rewrite !a_comments_eq.
  - destruct s; [|cbn in L; lia]. cbn. rewrite Hh. reflexivity.
  - pose proof (skip_len s) as Ks. rewrite tr_skip. unfold a_comment. rewrite tr_after by (apply plain_lit; reflexivity).
    destruct (after (s2b "<!--") (skip s)) as [s1|] eqn:A1.
    + pose proof (after_shorter (s2b "<!--") _ _ ltac:(discriminate) A1). rewrite tr_until by (try apply plain_lit; try reflexivity; discriminate).
      destruct (until _ s1) as [[[[x it] y] s2]|] eqn:U; [|reflexivity]. pose proof (until_shorter [s2b "-->"] s1 _ _ _ _ ltac:(gc) U). pose proof (skip_len s2).
      destruct x as [|c x]; [reflexivity|]. destruct (tr (c :: x)) as [|c' x'] eqn:Ex; [apply tr_nil in Ex; discriminate|].
      rewrite !add_item_none by exact Hs. rewrite Hh, tr_skip. apply IH; [lia|exact Hh|exact Hs].
    + rewrite Hh, tr_skip. reflexivity.
Qed.
(** as much as fits *)
Lemma fit_app a b room : (length (tr a) <= room)%nat -> fit t (a ++ b) room = tr a ++ fit t b (room - length (tr a)).
Proof.
  revert room. induction a as [|c a IH]; intros room L; cbn [app fit]; [rewrite Nat.sub_0_r; reflexivity|]. rewrite transcode_cons, app_length in *.
  destruct (Nat.ltb_spec room (length (written t c))); [lia|]. rewrite IH by lia. rewrite <- app_assoc. do 3 f_equal. lia.
Qed.
Lemma fit_ascii s room : (length s <= room)%nat -> Forall is_ascii s -> fit t s room = s.
Proof.
  intros L F. revert room L. induction F as [|c s Hc F IH]; intros room L; cbn [fit]; [reflexivity|]. rewrite (proj1 (Ht c) Hc). cbn [length] in *.
  destruct (Nat.ltb_spec room 1); [lia|]. cbn [app]. f_equal. apply IH. lia.
Qed.
Lemma tr_ascii_id s : Forall is_ascii s -> tr s = s.
Proof. induction 1 as [|c s Hc F IH]; [reflexivity|]. rewrite tr_ascii by exact Hc. rewrite IH. reflexivity. Qed.
(** without room for everything a part is missing *)
Lemma fit_short s room : (room < length (tr s))%nat -> exists z, tr s = fit t s room ++ z /\ z <> [].
Proof.
  revert room. induction s as [|c s IH]; intros room L; [cbn in L; lia|]. cbn [fit]. rewrite transcode_cons, app_length in L. rewrite transcode_cons.
  destruct (Nat.ltb_spec room (length (written t c))).
  - exists (written t c ++ tr s). split; [reflexivity|]. intros E. rewrite <- transcode_cons in E. apply tr_nil in E. discriminate.
  - destruct (IH (room - length (written t c))%nat ltac:(lia)) as (z & E & Nz). exists z. rewrite E, <- app_assoc. auto.
Qed.
End Commute.
