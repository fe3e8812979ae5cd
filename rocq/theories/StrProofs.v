From Verif Require Import Prelude StrModel StrSpec.
Open Scope Z_scope.

Local Arguments Z.of_nat : simpl never.
Local Arguments Z.add : simpl never.
Local Arguments Ascii.eqb : simpl never.

(** ** nul_free *)
Lemma nul_free_cons c s : nul_free (c :: s) <-> Ascii.eqb c NUL = false /\ nul_free s.
Proof.
  unfold nul_free. simpl. destruct (Ascii.eqb_spec c NUL) as [->|N].
  - split; [tauto|intros [E _]; discriminate].
  - split; [intro H; split; [reflexivity|tauto]|]. intros [_ H] [E|E]; [contradiction|tauto].
Qed.
Lemma nul_free_app s t : nul_free (s ++ t) <-> nul_free s /\ nul_free t.
Proof. unfold nul_free. rewrite in_app_iff. tauto. Qed.
Lemma nul_free_nil : nul_free [].
Proof. intros []. Qed.

(** ** memory access *)
Lemma nat_id n : Z.to_nat (Z.of_nat n) = n.
Proof. apply Nat2Z.id. Qed.
Lemma rd_app l c r i : i = Z.of_nat (length l) -> rd (l ++ c :: r) i = Ok c.
Proof.
  intros ->. unfold rd. destruct (Z.ltb_spec (Z.of_nat (length l)) 0); [lia|].
  rewrite nat_id, nth_error_app2, Nat.sub_diag by lia. reflexivity.
Qed.
Lemma set_at_app l c r d : set_at (l ++ c :: r) (length l) d = Some (l ++ d :: r).
Proof. induction l as [|x l IH]; simpl; [reflexivity|]. rewrite IH. reflexivity. Qed.
Lemma wr_app l c r d i : i = Z.of_nat (length l) -> wr (l ++ c :: r) i d = Ok (l ++ d :: r).
Proof.
  intros ->. unfold wr. destruct (Z.ltb_spec (Z.of_nat (length l)) 0); [lia|].
  rewrite nat_id, set_at_app. reflexivity.
Qed.
Lemma skipn_app_len {A} (l r : list A) : skipn (length l) (l ++ r) = r.
Proof. rewrite skipn_app, Nat.sub_diag, skipn_all. reflexivity. Qed.
Lemma firstn_app_len {A} (l r : list A) : firstn (length l) (l ++ r) = l.
Proof. rewrite firstn_app, Nat.sub_diag, firstn_all. simpl. apply app_nil_r. Qed.
Lemma ptr_at_app l r i : i = Z.of_nat (length l) -> ptr_at (l ++ r) i = Ok r.
Proof.
  intros ->. unfold ptr_at. destruct (Z.ltb_spec (Z.of_nat (length l)) 0); [lia|].
  destruct (Z.ltb_spec (Z.of_nat (length (l ++ r))) (Z.of_nat (length l))) as [L|L];
    [rewrite app_length in L; lia|]. simpl. rewrite nat_id, skipn_app_len. reflexivity.
Qed.
Lemma mem_sub_app l m r i n : i = Z.of_nat (length l) -> n = Z.of_nat (length m) ->
  mem_sub (l ++ m ++ r) i n = Ok m.
Proof.
  intros -> ->. unfold mem_sub. rewrite !app_length.
  destruct (Z.ltb_spec (Z.of_nat (length l)) 0); [lia|].
  destruct (Z.ltb_spec (Z.of_nat (length m)) 0); [lia|].
  destruct (Z.ltb_spec (Z.of_nat (length l + (length m + length r)))
             (Z.of_nat (length l) + Z.of_nat (length m))); [lia|].
  simpl. rewrite !nat_id, skipn_app_len, firstn_app_len. reflexivity.
Qed.
Lemma memcpy_app l m r s i : i = Z.of_nat (length l) -> length m = length s ->
  memcpy_to (l ++ m ++ r) i s = Ok (l ++ s ++ r).
Proof.
  intros -> E. unfold memcpy_to. rewrite !app_length, <- E.
  destruct (Z.ltb_spec (Z.of_nat (length l)) 0); [lia|].
  destruct (Z.ltb_spec (Z.of_nat (length l + (length m + length r)))
             (Z.of_nat (length l) + Z.of_nat (length m))); [lia|].
  simpl. rewrite nat_id, firstn_app_len.
  rewrite (app_assoc l m r), <- app_length, skipn_app_len. reflexivity.
Qed.

Lemma strlen_ok s r : nul_free s -> c_strlen (s ++ NUL :: r) = Ok (Z.of_nat (length s)).
Proof.
  induction s as [|c s IH]; simpl; intro H; [reflexivity|].
  apply nul_free_cons in H. destruct H as [H1 H2]. rewrite H1, (IH H2). simpl. f_equal. lia.
Qed.
Lemma strlen_cs s : nul_free s -> c_strlen (cs s) = Ok (Z.of_nat (length s)).
Proof. apply strlen_ok. Qed.
Lemma cstr_holds s r : nul_free s -> cstr (s ++ NUL :: r) = s.
Proof.
  induction s as [|c s IH]; simpl; intro H; [reflexivity|].
  apply nul_free_cons in H. destruct H as [H1 H2]. rewrite H1, (IH H2). reflexivity.
Qed.

(** ** comparisons *)
Lemma cmp_ok a ra b rb : nul_free a -> nul_free b ->
  axl_cmp (Some (a ++ NUL :: ra)) (Some (b ++ NUL :: rb)) = Ok (bytes_eqb a b).
Proof.
  unfold axl_cmp. revert b. induction a as [|x a IH]; intros [|y b] Ha Hb; simpl.
  - reflexivity.
  - apply nul_free_cons in Hb. destruct Hb as [-> _]. reflexivity.
  - apply nul_free_cons in Ha. destruct Ha as [-> _]. reflexivity.
  - apply nul_free_cons in Ha, Hb. destruct Ha as [-> Ha], Hb as [-> Hb].
    destruct (Ascii.eqb x y); simpl; [apply IH; assumption|reflexivity].
Qed.

(** memcmp compares the first [size] characters *)
Definition start_eq (n : nat) (a b : bytes) : bool :=
  (n <=? length a)%nat && (n <=? length b)%nat && bytes_eqb (firstn n a) (firstn n b).
Lemma memcmp_loop_ok a ra : forall b rb i n, nul_free a -> nul_free b ->
  memcmp_loop (a ++ NUL :: ra) (b ++ NUL :: rb) i (i + Z.of_nat (S n)) = Ok (start_eq (S n) a b).
Proof.
  induction a as [|x a IH]; intros [|y b] rb i n Ha Hb; simpl.
  - reflexivity.
  - reflexivity.
  - apply nul_free_cons in Ha. destruct Ha as [-> _]. unfold start_eq. simpl. rewrite andb_false_r. reflexivity.
  - apply nul_free_cons in Ha, Hb. destruct Ha as [-> Ha], Hb as [-> Hb]. unfold start_eq. simpl.
    destruct (Ascii.eqb x y) eqn:E; simpl; [|rewrite andb_false_r; reflexivity].
    destruct n as [|n].
    + destruct (Z.eqb_spec (i + 1) (i + Z.of_nat 1)); [|lia]. reflexivity.
    + destruct (Z.eqb_spec (i + 1) (i + Z.of_nat (S (S n)))); [lia|].
      replace (i + Z.of_nat (S (S n))) with (i + 1 + Z.of_nat (S n)) by lia.
      rewrite IH by assumption. reflexivity.
Qed.
Lemma memcmp_ok a ra b rb n : nul_free a -> nul_free b -> 1 <= n ->
  axl_memcmp (a ++ NUL :: ra) (b ++ NUL :: rb) n = Ok (start_eq (Z.to_nat n) a b).
Proof.
  intros Ha Hb Hn. unfold axl_memcmp. replace n with (0 + Z.of_nat (S (Z.to_nat n - 1))) at 1 by lia.
  rewrite memcmp_loop_ok by assumption. do 2 f_equal. lia.
Qed.
Lemma memcmp_nonpos a ra : forall b rb i n, nul_free a -> nul_free b -> n <= i ->
  memcmp_loop (a ++ NUL :: ra) (b ++ NUL :: rb) i n = Ok false.
Proof.
  induction a as [|x a IH]; intros [|y b] rb i n Ha Hb Hn; simpl; try reflexivity.
  - destruct (Ascii.eqb x NUL); reflexivity.
  - apply nul_free_cons in Ha, Hb. destruct Ha as [-> Ha], Hb as [-> Hb].
    destruct (Ascii.eqb x y); simpl; [|reflexivity].
    destruct (Z.eqb_spec (i + 1) n); [lia|]. apply IH; try assumption. lia.
Qed.

Lemma after_app p s : after p (p ++ s) = Some s.
Proof. induction p as [|x p IH]; simpl; [reflexivity|]. rewrite Ascii.eqb_refl. exact IH. Qed.
Lemma after_Some p : forall s r, after p s = Some r -> s = p ++ r.
Proof.
  induction p as [|x p IH]; simpl; intros s r E; [congruence|].
  destruct s as [|y s]; [discriminate|]. destruct (Ascii.eqb_spec x y); [|discriminate].
  subst. f_equal. apply IH; exact E.
Qed.
Lemma start_eq_after v s : v <> [] ->
  start_eq (length v) s v = match after v s with Some _ => true | None => false end.
Proof.
  intro Hv. clear Hv. unfold start_eq. revert s. induction v as [|x v IH]; intros s; simpl; [reflexivity|].
  destruct s as [|y s]; simpl; [reflexivity|].
  rewrite (Ascii.eqb_sym x y). destruct (Ascii.eqb y x); simpl.
  - apply IH.
  - rewrite andb_false_r. reflexivity.
Qed.
(** the way the code uses memcmp: is the C string [v] a prefix *)
Lemma memcmp_prefix s rs v rv : nul_free s -> nul_free v ->
  axl_memcmp (s ++ NUL :: rs) (v ++ NUL :: rv) (Z.of_nat (length v)) =
  Ok (match v with [] => false | _ => match after v s with Some _ => true | None => false end end).
Proof.
  intros Hs Hv. destruct v as [|x v].
  - apply memcmp_nonpos; auto. simpl. lia.
  - rewrite memcmp_ok by (auto; simpl; lia). rewrite nat_id, start_eq_after by discriminate. reflexivity.
Qed.

Lemma stream_cmp_ok a ra b rb n : nul_free a -> nul_free b -> 1 <= n -> a <> [] \/ b <> [] ->
  stream_cmp (Some (a ++ NUL :: ra)) (Some (b ++ NUL :: rb)) n = Ok (start_eq (Z.to_nat n) a b).
Proof.
  intros Ha Hb Hn Hne. unfold stream_cmp. destruct (Z.ltb_spec n 0); [lia|].
  destruct a as [|x a], b as [|y b]; simpl.
  - destruct Hne; contradiction.
  - apply nul_free_cons in Hb. destruct Hb as [E Hb]. unfold rd. simpl.
    rewrite Ascii.eqb_sym, E. unfold start_eq. destruct (Nat.leb_spec (Z.to_nat n) (length (@nil ascii))) as [L|L]; [simpl in L; lia|reflexivity].
  - apply nul_free_cons in Ha. destruct Ha as [E Ha]. unfold rd. simpl. rewrite E. unfold start_eq.
    destruct (Nat.leb_spec (Z.to_nat n) (length (@nil ascii))) as [L|L]; [simpl in L; lia|].
    rewrite andb_false_r. reflexivity.
  - apply nul_free_cons in Ha, Hb. destruct Ha as [Ex Ha], Hb as [Ey Hb]. unfold rd; simpl.
    replace (Z.to_nat n) with (S (Z.to_nat (n - 1))) by lia. unfold start_eq. simpl.
    destruct (Ascii.eqb x y); simpl; [|rewrite andb_false_r; reflexivity].
    destruct (Z.eqb_spec n 1) as [->|N]; [reflexivity|].
    pose proof (ptr_at_app [x] (a ++ NUL :: ra) 1 eq_refl) as E1. simpl in E1. rewrite E1.
    pose proof (ptr_at_app [y] (b ++ NUL :: rb) 1 eq_refl) as E2. simpl in E2. rewrite E2. simpl.
    rewrite memcmp_ok by (auto; lia). reflexivity.
Qed.

Lemma start_eq_len a b : length a = length b -> start_eq (length a) a b = bytes_eqb a b.
Proof.
  intro E. unfold start_eq. rewrite firstn_all, E, firstn_all, Nat.leb_refl. reflexivity.
Qed.
Lemma bytes_eqb_len a b : bytes_eqb a b = true -> length a = length b.
Proof. intro H. apply bytes_eqb_eq in H. congruence. Qed.

Lemma list_equal_string_ok a ra b rb : nul_free a -> nul_free b -> a <> [] \/ b <> [] ->
  c_list_equal_string (Some (a ++ NUL :: ra)) (Some (b ++ NUL :: rb)) = Ok (if bytes_eqb a b then 0 else 1).
Proof.
  intros Ha Hb Hne. unfold c_list_equal_string. rewrite !strlen_ok by assumption. cbn [bind].
  destruct (Z.eqb_spec (Z.of_nat (length a)) (Z.of_nat (length b))) as [E|E].
  - assert (length a = length b) by lia. rewrite stream_cmp_ok; auto.
    + rewrite nat_id, start_eq_len by assumption. reflexivity.
    + destruct a; simpl in *; [|lia]. destruct b; simpl in *; [|lia]. destruct Hne; contradiction.
  - destruct (bytes_eqb a b) eqn:B; [apply bytes_eqb_len in B; lia|reflexivity].
Qed.

(** ** case *)
Lemma N_of_ascii_lt c : (N_of_ascii c < 256)%N.
Proof. apply N_ascii_bounded. Qed.
Lemma to_lower_N c : N_of_ascii (to_lower c) =
  let n := N_of_ascii c in (if ((65 <=? n) && (n <=? 90))%N then n + 32 else n)%N.
Proof.
  unfold to_lower. cbv zeta. destruct ((65 <=? N_of_ascii c) && (N_of_ascii c <=? 90))%N eqn:E; [|reflexivity].
  apply N_ascii_embedding. apply andb_true_iff in E. destruct E as [_ E]. apply N.leb_le in E. lia.
Qed.
Lemma N_of_ascii_inj a b : N_of_ascii a = N_of_ascii b -> a = b.
Proof. intro E. rewrite <- (ascii_N_embedding a), <- (ascii_N_embedding b), E. reflexivity. Qed.
Lemma ascii_eq_N c n : (n < 256)%N -> c = ascii_of_N n <-> N_of_ascii c = n.
Proof.
  intro H. split; intro E; [subst; apply N_ascii_embedding; exact H|].
  rewrite <- E, ascii_N_embedding. reflexivity.
Qed.
Lemma same_letter_ok x y : to_lower x = to_lower y <-> same_letter x y.
Proof.
  pose proof (N_of_ascii_lt x). pose proof (N_of_ascii_lt y).
  pose proof (to_lower_N x) as Lx. pose proof (to_lower_N y) as Ly. cbv zeta in Lx, Ly.
  set (n := N_of_ascii x) in *. set (m := N_of_ascii y) in *.
  split.
  - intro E. apply (f_equal N_of_ascii) in E. rewrite Lx, Ly in E.
    destruct (N.eq_dec n m) as [F|F]; [left; apply N_of_ascii_inj; exact F|]. right.
    assert (G : forall k c, (k < 26)%N -> c = ascii_of_N (65 + k) \/ c = ascii_of_N (97 + k) <->
               N_of_ascii c = (65 + k)%N \/ N_of_ascii c = (97 + k)%N).
    { intros k c Hk. rewrite !ascii_eq_N by lia. reflexivity. }
    destruct (N.leb_spec 65 n), (N.leb_spec n 90), (N.leb_spec 65 m), (N.leb_spec m 90);
      simpl in E; try (exfalso; lia).
    + exists (n - 65)%N. rewrite !G by lia. fold n m. lia.
    + exists (m - 65)%N. rewrite !G by lia. fold n m. lia.
  - intros [->|(k & Hk & Ex & Ey)]; [reflexivity|]. apply N_of_ascii_inj. rewrite Lx, Ly.
    rewrite !ascii_eq_N in Ex, Ey by lia. fold n in Ex. fold m in Ey.
    destruct (N.leb_spec 65 n), (N.leb_spec n 90), (N.leb_spec 65 m), (N.leb_spec m 90); simpl; lia.
Qed.

Fixpoint case_eqb (a b : bytes) : bool :=
  match a, b with
  | [], [] => true
  | x :: a', y :: b' => Ascii.eqb (to_lower x) (to_lower y) && case_eqb a' b'
  | _, _ => false
  end.
Lemma case_eqb_ok a b : case_eqb a b = true <-> Forall2 same_letter a b.
Proof.
  revert b. induction a as [|x a IH]; intros [|y b]; simpl.
  - split; [constructor|reflexivity].
  - split; [discriminate|intro H; inversion H].
  - split; [discriminate|intro H; inversion H].
  - rewrite andb_true_iff, Ascii.eqb_eq, IH, same_letter_ok. split.
    + intros [H1 H2]; constructor; assumption.
    + intro H; inversion H; subst; split; assumption.
Qed.
Lemma strncasecmp_ok a ra : forall b rb, nul_free a -> length a = length b ->
  strncasecmp0 (a ++ NUL :: ra) (b ++ NUL :: rb) (length a) = Ok (case_eqb a b).
Proof.
  induction a as [|x a IH]; intros [|y b] rb Ha E; simpl in *; try discriminate; [reflexivity|].
  apply nul_free_cons in Ha. destruct Ha as [-> Ha].
  destruct (Ascii.eqb (to_lower x) (to_lower y)); simpl; [|reflexivity].
  apply IH; [exact Ha|lia].
Qed.
Lemma casecmp_ok a ra b rb : nul_free a -> nul_free b ->
  axl_casecmp (Some (a ++ NUL :: ra)) (Some (b ++ NUL :: rb)) = Ok (case_eqb a b).
Proof.
  intros Ha Hb. unfold axl_casecmp. rewrite !strlen_ok by assumption. cbn [bind].
  destruct (Z.eqb_spec (Z.of_nat (length a)) (Z.of_nat (length b))) as [E|E].
  - unfold stream_casecmp. destruct (Z.ltb_spec (Z.of_nat (length a)) 0); [lia|].
    rewrite nat_id. apply strncasecmp_ok; [assumption|lia].
  - f_equal. symmetry. apply not_true_iff_false. intro F. apply case_eqb_ok in F.
    assert (length a = length b) by (clear - F; induction F; simpl; congruence). lia.
Qed.

(** ** trim *)
Lemma is_ws_white c : is_ws c = white c.
Proof. unfold is_ws, white. simpl. rewrite orb_false_r, !orb_assoc. reflexivity. Qed.
Lemma is_ws_not_nul c : is_ws c = true -> Ascii.eqb c NUL = false.
Proof.
  intro H. destruct (Ascii.eqb_spec c NUL) as [->|]; [|reflexivity]. vm_compute in H. discriminate.
Qed.
Lemma skip_ws_ok l : forall pre r fuel, (length l < fuel)%nat -> forallb is_ws l = true ->
  match r with [] => False | c :: _ => is_ws c = false end ->
  skip_ws fuel (pre ++ l ++ r) (Z.of_nat (length pre)) = Ok (Z.of_nat (length pre + length l)).
Proof.
  induction l as [|c l IH]; intros pre r fuel Hf Hw Hr; destruct fuel as [|fuel]; simpl in *; try lia.
  - destruct r as [|c r]; [contradiction|]. rewrite rd_app by reflexivity. simpl.
    destruct (Ascii.eqb c NUL); [f_equal; lia|]. rewrite Hr. simpl. f_equal; lia.
  - apply andb_true_iff in Hw. destruct Hw as [Hc Hw].
    rewrite rd_app by reflexivity. simpl. rewrite (is_ws_not_nul _ Hc), Hc. simpl.
    specialize (IH (pre ++ [c]) r fuel). rewrite app_length, <- app_assoc in IH. simpl in IH.
    replace (Z.of_nat (length pre) + 1) with (Z.of_nat (length pre + 1)) by lia.
    rewrite IH by (auto; lia). f_equal. lia.
Qed.
Lemma skip_ws_back_ok r : forall pre c post fuel, (length r < fuel)%nat -> forallb is_ws r = true ->
  is_ws c = false ->
  skip_ws_back fuel (pre ++ c :: r ++ post) (Z.of_nat (length pre + length r)) = Ok (Z.of_nat (length pre)).
Proof.
  induction r as [|d r IH] using rev_ind; intros pre c post fuel Hf Hw Hc;
    destruct fuel as [|fuel]; simpl in *; try lia.
  - rewrite rd_app by lia. simpl. rewrite Hc. simpl. destruct (Ascii.eqb c NUL); f_equal; lia.
  - rewrite app_length in Hf |- *. rewrite forallb_app in Hw. apply andb_true_iff in Hw. destruct Hw as [Hw Hd].
    simpl in Hd. rewrite andb_true_r in Hd.
    replace (pre ++ c :: (r ++ [d]) ++ post) with ((pre ++ c :: r) ++ d :: post)
      by (rewrite <- !app_assoc; simpl; rewrite <- ?app_assoc; reflexivity).
    rewrite rd_app by (rewrite app_length; simpl; lia). cbn [bind]. rewrite (is_ws_not_nul _ Hd), Hd. cbn [negb].
    replace (Z.of_nat (length pre + (length r + length [d])) - 1) with (Z.of_nat (length pre + length r)) by (simpl length; lia).
    replace ((pre ++ c :: r) ++ d :: post) with (pre ++ c :: r ++ d :: post) by (rewrite <- app_assoc; reflexivity).
    apply IH; auto. simpl in Hf. lia.
Qed.

Lemma move_shift n : forall k b dst src, move_loop n k b dst src = move_loop n 0 b (dst + k) (src + k).
Proof.
  induction n as [|n IH]; intros k b dst src; simpl; [reflexivity|].
  rewrite !Z.add_0_r. destruct (rd b (src + k)); simpl; try reflexivity.
  destruct (wr b (dst + k) a); simpl; try reflexivity.
  rewrite (IH (k + 1)), (IH (0 + 1)). f_equal; lia.
Qed.
Lemma move_ok x : forall l mid r,
  move_loop (length x) 0 (l ++ mid ++ x ++ r) (Z.of_nat (length l)) (Z.of_nat (length l + length mid))
  = Ok (l ++ x ++ skipn (length x) (mid ++ x) ++ r).
Proof.
  induction x as [|c x IH]; intros l mid r; simpl.
  - rewrite app_nil_r. reflexivity.
  - rewrite !Z.add_0_r.
    replace (l ++ mid ++ c :: x ++ r) with ((l ++ mid) ++ c :: x ++ r) by (rewrite <- app_assoc; reflexivity).
    rewrite rd_app by (rewrite app_length; lia). simpl.
    destruct mid as [|m mid].
    + rewrite app_nil_r. rewrite wr_app by reflexivity. simpl. rewrite move_shift.
      specialize (IH (l ++ [c]) [] r). rewrite app_length in IH. simpl in IH.
      rewrite <- !app_assoc in IH. simpl in IH.
      replace (Z.of_nat (length l) + (0 + 1)) with (Z.of_nat (length l + 1)) by lia.
      replace (Z.of_nat (length l + 0) + (0 + 1)) with (Z.of_nat (length l + 1 + 0)) by lia.
      rewrite IH. reflexivity.
    + rewrite <- app_assoc. simpl. rewrite wr_app by reflexivity. simpl. rewrite move_shift.
      specialize (IH (l ++ [c]) (mid ++ [c]) r). rewrite !app_length in IH. simpl in IH.
      rewrite <- !app_assoc in IH. simpl in IH.
      replace (Z.of_nat (length l) + (0 + 1)) with (Z.of_nat (length l + 1)) by lia.
      replace (Z.of_nat (length l + S (length mid)) + (0 + 1)) with (Z.of_nat (length l + 1 + (length mid + 1))) by lia.
      rewrite IH. reflexivity.
Qed.
