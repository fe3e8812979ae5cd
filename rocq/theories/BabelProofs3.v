(** The tables. *)
From Coq Require Import NArith.
From Verif Require Import Prelude Arr BabelModel BabelTables BabelPoints BabelSpec BabelExec BabelProofs BabelProofs2.
Open Scope nat_scope.
Open Scope list_scope.

Definition scalar (u : N) : bool := ((u <? 55296) || ((57343 <? u) && (u <? 65536)))%N.
Fixpoint nl_eqb (a b : list N) : bool :=
  match a, b with [], [] => true | x :: a, y :: b => N.eqb x y && nl_eqb a b | _, _ => false end.
Lemma nl_eqb_eq a b : nl_eqb a b = true -> a = b.
Proof. revert b; induction a as [|x a IH]; intros [|y b] H; try discriminate; [reflexivity|]. cbn in H. apply andb_true_iff in H as [H1 H2]. apply N.eqb_eq in H1. f_equal; auto. Qed.
Definition entry_ok (t : table) (p : list (option N)) (b : nat) : bool :=
  match point p b with Some u => scalar u && nl_eqb (snd (nth b t (0, []))) (encode u) | None => true end.
Fixpoint points_from (n : nat) (p : list (option N)) (b : nat) : list N :=
  match n with O => [] | S n => match point p b with Some u => u :: points_from n p (S b) | None => points_from n p (S b) end end.
Fixpoint nodupb (l : list N) : bool := match l with [] => true | x :: l => negb (existsb (N.eqb x) l) && nodupb l end.
Definition table_ok (tp : table * list (option N)) : bool :=
  let (t, p) := tp in
  Nat.eqb (length t) 256 && forallb (fun e => Nat.eqb (fst e) (length (snd e)) && (1 <=? fst e) && (fst e <=? 6)) t
  && forallb (entry_ok t p) (seq 0 256) && nodupb (points_from 256 p 0).
Lemma shipped_ok : forallb table_ok shipped = true.
Proof. vm_compute. reflexivity. Qed.

Lemma table_full t p : table_ok (t, p) = true -> full t.
Proof.
  unfold table_ok. rewrite !andb_true_iff. intros [[[L F] _] _]. apply Nat.eqb_eq in L. split; [exact L|]. rewrite forallb_forall in F. apply Forall_forall. intros e I. specialize (F e I).
  rewrite !andb_true_iff in F. destruct F as [[F1 F2] F3]. apply Nat.eqb_eq in F1. apply Nat.leb_le in F2, F3. lia.
Qed.
Lemma table_entry t p b u : table_ok (t, p) = true -> b < 256 -> point p b = Some u -> scalar u = true /\ snd (nth b t (0, [])) = encode u.
Proof.
  unfold table_ok. rewrite !andb_true_iff. intros [[_ F] _] B E. rewrite forallb_forall in F. specialize (F b ltac:(apply in_seq; lia)). unfold entry_ok in F. rewrite E in F.
  apply andb_true_iff in F as [F1 F2]. split; [exact F1|]. apply nl_eqb_eq. exact F2.
Qed.
Lemma points_from_in : forall n p b c u, b <= c < b + n -> point p c = Some u -> In u (points_from n p b).
Proof.
  induction n as [|n IH]; intros p b c u C E; [lia|]. cbn [points_from]. destruct (Nat.eq_dec c b) as [->|].
  - rewrite E. left. reflexivity.
  - specialize (IH p (S b) c u ltac:(lia) E). destruct (point p b); [right; exact IH|exact IH].
Qed.
Lemma nodupb_inj : forall n p b, nodupb (points_from n p b) = true -> forall c d u, b <= c < b + n -> b <= d < b + n -> point p c = Some u -> point p d = Some u -> c = d.
Proof.
  induction n as [|n IH]; intros p b N c d u C D Ec Ed; [lia|]. cbn [points_from] in N.
  assert (X : forall y v, S b <= y < S b + n -> point p y = Some v -> point p b = Some v -> False).
  { intros y v Y Ey Eb. rewrite Eb in N. cbn [nodupb] in N. apply andb_true_iff in N as [N _]. apply negb_true_iff in N. rewrite <- not_true_iff_false in N. apply N. apply existsb_exists. exists v. split; [apply (points_from_in n p (S b) y v Y Ey)|apply N.eqb_refl]. }
  destruct (Nat.eq_dec c b) as [->|Nc], (Nat.eq_dec d b) as [->|Nd]; [reflexivity|exfalso; apply (X d u); auto; lia|exfalso; apply (X c u); auto; lia|].
  apply (IH p (S b)) with u; auto; try lia. destruct (point p b); [cbn [nodupb] in N; apply andb_true_iff in N; tauto|exact N].
Qed.
Lemma table_inj t p c d u : table_ok (t, p) = true -> c < 256 -> d < 256 -> point p c = Some u -> point p d = Some u -> c = d.
Proof. unfold table_ok. rewrite !andb_true_iff. intros [_ N] C D. apply (nodupb_inj 256 p 0 N); lia. Qed.

Ltac dm u := pose proof (N.mod_lt u 64 ltac:(discriminate)); pose proof (N.mod_lt (u / 64) 64 ltac:(discriminate)); pose proof (N.div_mod u 64 ltac:(discriminate));
  pose proof (N.div_mod (u / 64) 64 ltac:(discriminate)); assert (u / 4096 = u / 64 / 64)%N by (rewrite N.div_div by discriminate; reflexivity);
  let q := fresh "q" in let r := fresh "r" in let q2 := fresh "q2" in let r2 := fresh "r2" in let q3 := fresh "q3" in
  set (q := (u / 64)%N) in *; set (r := (u mod 64)%N) in *; set (q2 := (q / 64)%N) in *; set (r2 := (q mod 64)%N) in *; set (q3 := (u / 4096)%N) in *; clearbody q3 q2 r2 q r.
Lemma encode_seq u : scalar u = true -> utf8_seq (map ascii_of_N (encode u)).
Proof.
  unfold scalar. intros H. assert (U : (u < 55296 \/ 57343 < u /\ u < 65536)%N).
  { apply orb_true_iff in H as [H|H]; [apply N.ltb_lt in H; lia|]. apply andb_true_iff in H as [H1 H2]. apply N.ltb_lt in H1, H2. lia. }
  clear H. assert (A : forall lo hi v, (lo <= v <= hi)%N -> (hi < 256)%N -> rng lo hi (ascii_of_N v)) by (intros lo hi v V W; unfold rng; rewrite N_ascii_embedding by lia; exact V).
  unfold encode. dm u. destruct (N.ltb_spec u 128) as [G1|G1]; [apply u1, A; lia|]. destruct (N.ltb_spec u 2048) as [G2|G2].
  - cbn [map]. apply u2; apply A; lia.
  - cbn [map]. set (a := (224 + q3)%N). assert (Ra : (224 <= a <= 239)%N) by (unfold a; lia).
    destruct (N.eq_dec a 224) as [E|E]; [apply u3_e0; apply A; unfold a in *; lia|]. destruct (N.eq_dec a 237) as [E2|E2]; [apply u3_ed; apply A; unfold a in *; lia|].
    apply u3; [|apply A; lia|apply A; lia]. destruct (N.leb_spec a 236); [left|right]; apply A; lia.
Qed.
Lemma encode_byte u : scalar u = true -> Forall (fun b => (b < 256)%N) (encode u).
Proof.
  unfold scalar. intros H. assert (U : (u < 65536)%N).
  { apply orb_true_iff in H as [H|H]; [apply N.ltb_lt in H; lia|]. apply andb_true_iff in H as [H1 H2]. apply N.ltb_lt in H1, H2. lia. }
  unfold encode. dm u. destruct (N.ltb_spec u 128); [|destruct (N.ltb_spec u 2048)]; repeat constructor; lia.
Qed.
Lemma encode_inj u v : scalar u = true -> scalar v = true -> encode u = encode v -> u = v.
Proof.
  intros _ _. unfold encode. dm u. dm v. destruct (N.ltb_spec u 128), (N.ltb_spec v 128); try (destruct (N.ltb_spec u 2048)); try (destruct (N.ltb_spec v 2048)); intros E; try discriminate E;
    pose proof (f_equal (fun l => nth 0 l 0%N) E) as X0; pose proof (f_equal (fun l => nth 1 l 0%N) E) as X1; pose proof (f_equal (fun l => nth 2 l 0%N) E) as X2; cbn [nth] in X0, X1, X2; lia.
Qed.
Lemma ascii_map_inj a b : Forall (fun x => (x < 256)%N) a -> Forall (fun x => (x < 256)%N) b -> map ascii_of_N a = map ascii_of_N b -> a = b.
Proof.
  intros Fa. revert b. induction Fa as [|x a X Fa IH]; intros b Fb E; destruct Fb as [|y b Y Fb]; try discriminate; [reflexivity|]. cbn in E. injection E as E1 E2.
  f_equal; [|auto]. rewrite <- (N_ascii_embedding x X), <- (N_ascii_embedding y Y), E1. reflexivity.
Qed.

Lemma byte_lt c : N.to_nat (N_of_ascii c) < 256.
Proof. pose proof (N_ascii_bounded c). lia. Qed.
Lemma written_encode t p c u : table_ok (t, p) = true -> point p (N.to_nat (N_of_ascii c)) = Some u -> scalar u = true /\ written t c = map ascii_of_N (encode u).
Proof. intros T E. destruct (table_entry t p _ u T (byte_lt c) E) as [S H]. split; [exact S|]. unfold written. rewrite H. reflexivity. Qed.
Lemma transcode_points t p : table_ok (t, p) = true -> forall src us, code_points p src = Some us -> transcode t src = encode_all us /\ utf8 (transcode t src).
Proof.
  intros T src. induction src as [|c src IH]; intros us E; cbn [code_points] in E.
  - injection E as <-. split; [reflexivity|]. exists []. auto.
  - destruct (point p (N.to_nat (N_of_ascii c))) as [u|] eqn:Eu; [|discriminate]. destruct (code_points p src) as [l|] eqn:El; [|discriminate]. injection E as <-.
    destruct (IH l eq_refl) as [H1 (parts & F & C)]. destruct (written_encode t p c u T Eu) as [S W]. rewrite transcode_cons, W. split.
    + rewrite H1. unfold encode_all. cbn [map concat]. rewrite map_app. reflexivity.
    + exists (map ascii_of_N (encode u) :: parts). split; [constructor; [apply encode_seq, S|exact F]|cbn [concat]; rewrite C; reflexivity].
Qed.
Lemma transcode_inj t p : table_ok (t, p) = true -> forall a b ua ub, code_points p a = Some ua -> code_points p b = Some ub -> transcode t a = transcode t b -> a = b.
Proof.
  intros T a. induction a as [|c a IH]; intros [|d b] ua ub Ea Eb E; [reflexivity| | |]; cbn [code_points] in Ea, Eb.
  - exfalso. destruct (point p (N.to_nat (N_of_ascii d))) as [u|] eqn:Eu; [|discriminate]. destruct (written_encode t p d u T Eu) as [S W]. rewrite transcode_cons, W in E. cbn in E. symmetry in E. apply app_eq_nil in E as [E _]. exact (shape_ne _ (seq_shape _ (encode_seq u S)) E).
  - exfalso. destruct (point p (N.to_nat (N_of_ascii c))) as [u|] eqn:Eu; [|discriminate]. destruct (written_encode t p c u T Eu) as [S W]. rewrite transcode_cons, W in E. apply app_eq_nil in E as [E _]. exact (shape_ne _ (seq_shape _ (encode_seq u S)) E).
  - destruct (point p (N.to_nat (N_of_ascii c))) as [u|] eqn:Eu; [|discriminate]. destruct (point p (N.to_nat (N_of_ascii d))) as [v|] eqn:Ev; [|discriminate].
    destruct (code_points p a) as [la|] eqn:La; [|discriminate]. destruct (code_points p b) as [lb|] eqn:Lb; [|discriminate].
    destruct (written_encode t p c u T Eu) as [Su Wu]. destruct (written_encode t p d v T Ev) as [Sv Wv]. rewrite !transcode_cons, Wu, Wv in E.
    destruct (shape_prefix _ _ _ _ (seq_shape _ (encode_seq u Su)) (seq_shape _ (encode_seq v Sv)) E) as [E1 E2].
    apply ascii_map_inj in E1; [|apply encode_byte; assumption|apply encode_byte; assumption]. apply encode_inj in E1; [|assumption|assumption]. subst v.
    pose proof (table_inj t p _ _ u T (byte_lt c) (byte_lt d) Eu Ev) as Ecd. apply N2Nat.inj in Ecd. f_equal; [|exact (IH b la lb eq_refl Lb E2)].
    rewrite <- (ascii_N_embedding c), <- (ascii_N_embedding d), Ecd. reflexivity.
Qed.
Lemma in_shipped t p : In (t, p) shipped -> table_ok (t, p) = true.
Proof. intros I. exact (proj1 (forallb_forall _ _) shipped_ok _ I). Qed.
Lemma tables_ok t p : In (t, p) shipped ->
  full t /\
  (forall src us, code_points p src = Some us -> transcode t src = encode_all us /\ utf8 (transcode t src)) /\
  (forall src1 src2 us1 us2, code_points p src1 = Some us1 -> code_points p src2 = Some us2 -> transcode t src1 = transcode t src2 -> src1 = src2).
Proof. intros I. pose proof (in_shipped t p I) as T. split; [exact (table_full t p T)|]. split; [exact (transcode_points t p T)|exact (transcode_inj t p T)]. Qed.
Lemma in_15 : In (table_15, points_15) shipped.
Proof. unfold shipped. do 9 right. left. reflexivity. Qed.
Lemma full_15 : full table_15.
Proof. exact (proj1 (tables_ok _ _ in_15)). Qed.
Lemma steps_ok t outs k : full t -> k_last k <= length (k_temp k) ->
  exists k' l, decode_all t k outs = Ok (k', l) /\
    concat l ++ transcode t (pending k') = transcode t (pending k) /\
    Forall2 (fun o out => length o <= length out) l outs /\
    ((forall out, In out outs -> 6 <= length out) -> k_last k <= length outs -> pending k' = []).
Proof. intros F S. destruct (decode_all_ok t F outs k S) as (k' & l & H1 & _ & _ & H2 & H3 & H4). eauto 8. Qed.
Lemma check_total content junk : check_utf8 (content ++ junk) (Z.of_nat (length content)) = Ok (true, 0) \/
  exists k, check_utf8 (content ++ junk) (Z.of_nat (length content)) = Ok (false, k).
Proof. destruct (check_cases content junk) as [[_ E]|(good & rest & _ & _ & _ & E)]; eauto. Qed.
