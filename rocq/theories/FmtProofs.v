(** Printed texts. *)
From Coq Require Import DecimalString DecimalZ.
From Verif Require Import Prelude StrModel FmtModel FmtSpec.
Open Scope Z_scope.

Lemma expand_prints f args out : prints f args out -> expand f args = Some out.
Proof.
  intros P. induction P as [args|c f args out N P IH|f args out P IH|s f args out P IH|n f args out P IH|a f args out P IH]; [reflexivity| | | | |].
  - cbn [expand]. destruct (Ascii.eqb_spec c "%"); [congruence|]. rewrite IH. reflexivity.
  - cbn [expand]. rewrite !Ascii.eqb_refl, IH. reflexivity.
  - cbn [expand]. rewrite !Ascii.eqb_refl. change (Ascii.eqb "s" "%") with false. cbn iota. rewrite IH. reflexivity.
  - cbn [expand]. rewrite !Ascii.eqb_refl. change (Ascii.eqb "d" "%") with false. cbn iota. rewrite IH. reflexivity.
  - cbn [expand]. rewrite !Ascii.eqb_refl. change (Ascii.eqb "c" "%") with false. cbn iota. rewrite IH. reflexivity.
Qed.
Lemma dec_inj a b : dec a = dec b -> a = b.
Proof.
  unfold dec. intros E. assert (NilZero.string_of_int (Z.to_int a) = NilZero.string_of_int (Z.to_int b)) as E1.
  { rewrite <- (string_of_list_ascii_of_string (NilZero.string_of_int (Z.to_int a))), <- (string_of_list_ascii_of_string (NilZero.string_of_int (Z.to_int b))). f_equal. exact E. }
  assert (forall z, NilZero.int_of_string (NilZero.string_of_int (Z.to_int z)) = Some (Z.to_int z)) as R.
  { intros z. rewrite NilZero.isi; [|intros Q|intros Q].
    - reflexivity.
    - destruct z as [|p|p]; [discriminate|cbn in Q; injection Q as Q; apply DecimalPos.Unsigned.to_uint_nonnil in Q; destruct Q|discriminate].
    - destruct z as [|p|p]; [discriminate|discriminate|cbn in Q; injection Q as Q; apply DecimalPos.Unsigned.to_uint_nonnil in Q; destruct Q]. }
  pose proof (R a) as Ra. rewrite E1, R in Ra. injection Ra as Ra. rewrite <- (DecimalZ.of_to a), <- (DecimalZ.of_to b), Ra. reflexivity.
Qed.

Lemma set_at_app l x r c : set_at (l ++ x :: r) (length l) c = Some (l ++ c :: r).
Proof. induction l as [|y l IH]; [reflexivity|]. cbn [app length set_at]. rewrite IH. reflexivity. Qed.
Lemma put_is : forall s l r, (length s <= length r)%nat -> put_bytes (l ++ r) (Z.of_nat (length l)) s = Ok (l ++ s ++ skipn (length s) r).
Proof.
  induction s as [|c s IH]; intros l r L; [reflexivity|]. destruct r as [|x r]; cbn [length] in L; [lia|]. cbn [put_bytes].
  unfold wr. destruct (Z.ltb_spec (Z.of_nat (length l)) 0); [lia|]. rewrite Nat2Z.id, set_at_app. cbn [of_option bind].
  replace (l ++ c :: r) with ((l ++ [c]) ++ r) by (rewrite <- app_assoc; reflexivity). replace (Z.of_nat (length l) + 1) with (Z.of_nat (length (l ++ [c]))) by (rewrite app_length; cbn [length]; lia).
  rewrite IH by lia. rewrite <- app_assoc. reflexivity.
Qed.
Lemma vsn_is buf size f v out : (va_stale v && takes f)%bool = false -> prints f (va_args v) out -> 0 < size -> size <= Z.of_nat (length buf) ->
  vsnprintf buf size f v = Ok (Z.of_nat (length out), (firstn (Z.to_nat (size - 1)) out ++ [NUL]) ++ skipn (length (firstn (Z.to_nat (size - 1)) out) + 1) buf, Va (va_args v) (va_stale v || takes f)).
Proof.
  intros V P L1 L2. unfold vsnprintf. rewrite V, (expand_prints _ _ _ P). destruct (Z.eqb_spec size 0); [lia|].
  pose proof (put_is (firstn (Z.to_nat (size - 1)) out ++ [NUL]) [] buf) as Q. cbn [app length] in Q. change (Z.of_nat 0) with 0 in Q. rewrite Q.
  2:{ rewrite app_length, firstn_length. cbn [length]. lia. }
  cbn [bind]. rewrite app_length. reflexivity.
Qed.
Lemma vsn_count f v out : (va_stale v && takes f)%bool = false -> prints f (va_args v) out -> vsnprintf [] 0 f v = Ok (Z.of_nat (length out), [], Va (va_args v) (va_stale v || takes f)).
Proof. intros V P. unfold vsnprintf. rewrite V, (expand_prints _ _ _ P). reflexivity. Qed.

(** ** Into a buffer *)
Lemma buffer_is buf size f args out : prints f args out -> 0 < size -> size <= Z.of_nat (length buf) ->
  exists n, n = Z.min (Z.of_nat (length out)) (size - 1) /\
    printf_buffer buf size (Some f) args = Ok (n, Z.of_nat (length out), firstn (Z.to_nat n) out ++ [NUL] ++ skipn (Z.to_nat n + 1) buf).
Proof.
  intros P L1 L2. exists (Z.min (Z.of_nat (length out)) (size - 1)). split; [reflexivity|]. unfold printf_buffer. destruct (Z.ltb_spec size 0); [lia|].
  rewrite (vsn_is buf size f (va_start args) out eq_refl P L1 L2). cbn [bind].
  replace (if size - 1 <? Z.of_nat (length out) then size - 1 else Z.of_nat (length out)) with (Z.min (Z.of_nat (length out)) (size - 1)) by (destruct (Z.ltb_spec (size - 1) (Z.of_nat (length out))); lia).
  f_equal. f_equal. rewrite firstn_length. rewrite <- app_assoc. destruct (Z.le_gt_cases (Z.of_nat (length out)) (size - 1)) as [L|L].
  - rewrite (firstn_all2 (n := Z.to_nat (size - 1))) by lia. rewrite (firstn_all2 (n := Z.to_nat (Z.min (Z.of_nat (length out)) (size - 1)))) by lia.
    replace (Nat.min (Z.to_nat (size - 1)) (length out)) with (Z.to_nat (Z.min (Z.of_nat (length out)) (size - 1))) by lia. reflexivity.
  - replace (Z.min (Z.of_nat (length out)) (size - 1)) with (size - 1) by lia. replace (Nat.min (Z.to_nat (size - 1)) (length out)) with (Z.to_nat (size - 1)) by lia. reflexivity.
Qed.
Lemma buffer_none buf size f args : printf_buffer buf size None args = Ok (0, 0, buf) /\ (prints f args [] -> printf_buffer buf 0 (Some f) args = Ok (-1, 0, buf)).
Proof. split; [reflexivity|]. intros P. unfold printf_buffer, vsnprintf. cbn [va_start va_stale andb va_args]. rewrite (expand_prints _ _ _ P). reflexivity. Qed.
Lemma len_is f args out : prints f args out -> printf_len (Some f) args = Ok (Z.of_nat (length out) + 1).
Proof. intros P. unfold printf_len, vprintf_len. rewrite (vsn_count f (va_start args) out eq_refl P). reflexivity. Qed.

(** ** Into a new block *)
Lemma new_holds f v out : (va_stale v && takes f)%bool = false -> prints f (va_args v) out ->
  exists b v', vsnprintf (new_chars (Z.of_nat (length out) + 1 + 2)) (Z.of_nat (length out) + 1 + 1) f v = Ok (Z.of_nat (length out), b, v') /\ holds b out.
Proof.
  intros V P. rewrite (vsn_is _ _ f v out V P); [|lia|unfold new_chars; rewrite repeat_length; lia]. do 2 eexists. split; [reflexivity|].
  rewrite firstn_all2 by lia. eexists. rewrite <- app_assoc. reflexivity.
Qed.
Lemma strdup_len_is have f args out : prints f args out -> exists b, strdup_printf_len have (Some f) args = Ok (Some (b, Z.of_nat (length out))) /\ holds b out.
Proof.
  intros P. unfold strdup_printf_len. destruct have.
  - unfold vasprintf. cbn [va_start va_stale andb va_args]. rewrite (expand_prints _ _ _ P). cbn [bind]. eexists. split; [reflexivity|]. exists []. reflexivity.
  - unfold vprintf_len. rewrite (vsn_count f (va_start args) out eq_refl P). cbn [bind]. destruct (Z.eqb_spec (Z.of_nat (length out) + 1) (-1)); [lia|].
    destruct (new_holds f (va_start args) out eq_refl P) as (b & v' & E & H). rewrite E. cbn [bind]. exists b. split; [reflexivity|exact H].
Qed.
Lemma strdup_is f args out : prints f args out -> exists b, strdup_printf true (Some f) args = Ok (Some b) /\ holds b out.
Proof.
  intros P. unfold strdup_printf, strdup_printfv, vasprintf. cbn [va_start va_stale andb va_args]. rewrite (expand_prints _ _ _ P). cbn [bind].
  eexists. split; [reflexivity|]. exists []. reflexivity.
Qed.
(** without vasprintf the arguments are read twice *)
Lemma strdup_plain f args out : prints f args out -> takes f = false -> exists b, strdup_printf false (Some f) args = Ok (Some b) /\ holds b out.
Proof.
  intros P N. unfold strdup_printf, strdup_printfv, vprintf_len. rewrite (vsn_count f (va_start args) out eq_refl P). cbn [bind va_args va_start va_stale orb]. rewrite N.
  destruct (Z.eqb_spec (Z.of_nat (length out) + 1) (-1)); [lia|]. destruct (new_holds f (Va args false) out eq_refl P) as (b & v' & E & H). rewrite E. cbn [bind].
  exists b. split; [reflexivity|exact H].
Qed.
Lemma strdup_twice f args out : prints f args out -> takes f = true -> strdup_printf false (Some f) args = UB.
Proof.
  intros P N. unfold strdup_printf, strdup_printfv, vprintf_len. rewrite (vsn_count f (va_start args) out eq_refl P). cbn [bind va_args va_start va_stale orb]. rewrite N.
  destruct (Z.eqb_spec (Z.of_nat (length out) + 1) (-1)); [lia|]. unfold vsnprintf. cbn [va_stale]. rewrite N. reflexivity.
Qed.

(** ** Errors *)
Lemma new_is code text p : exists e b, error_new true code text (Some p) = Ok e /\ error_was_ok (Some e) = false /\ error_get_code (Some e) = code /\ error_get (Some e) = Some b /\
  holds b (s2b "Error found (stream size: " ++ dec (p_size p) ++ s2b ", at byte " ++ dec (p_index p) ++ s2b " (global index: " ++ dec (p_global p) ++ s2b "), near to ..." ++ p_near p ++
    s2b "..., while reading: " ++ (match p_following p with Some s => s | None => [] end) ++ s2b "): " ++ text ++ ["010"%char]).
Proof.
  unfold error_new. set (args := [AInt _; _; _; _; _; _]). edestruct (strdup_is place_format args) as (b & E & H).
  2:{ rewrite E. cbn [bind]. do 2 eexists. split; [reflexivity|]. split; [reflexivity|]. split; [reflexivity|]. split; [reflexivity|]. exact H. }
  unfold place_format, args. repeat first [apply prints_char; [discriminate|] | apply prints_number | apply prints_string | apply prints_end].
Qed.
Lemma report_is code f args out : prints f args out -> exists e b, error_report true code (Some f) args = Ok e /\ error_was_ok (Some e) = false /\ error_get_code (Some e) = code /\
  error_get (Some e) = Some b /\ holds b out.
Proof.
  intros P. unfold error_report. destruct (strdup_is f args out P) as (b & E & H). unfold strdup_printf in E. rewrite E. cbn [bind]. do 2 eexists.
  split; [reflexivity|]. split; [reflexivity|]. split; [reflexivity|]. split; [reflexivity|]. exact H.
Qed.
