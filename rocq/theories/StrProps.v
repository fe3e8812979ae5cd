(** C14 - C18: the string helpers. *)
From Verif Require Import Prelude ListModel StrModel StrSpec StrProofs StrProofs2 StrProofs3.
Open Scope Z_scope.

(** Trimming: the string left is the original without the white space around it,
    the reported number is the number of bytes removed, memory after the original
    terminator is untouched. *)
Theorem C14_trim :
  forall b s, holds b s ->
  exists b' t, stream_trim_with_size b = Ok (b', Z.of_nat (length s) - Z.of_nat (length t)) /\
    trimmed s t /\ holds b' t /\
    (length b' = length b /\ skipn (length s + 1) b' = skipn (length s + 1) b).
Proof. exact trim_ok. Qed.
Print Assumptions C14_trim.

Example C14_case :
  holds (s2b "  a b " ++ NUL :: s2b "xy") (s2b "  a b ") /\
  stream_trim_with_size (s2b "  a b " ++ NUL :: s2b "xy") = Ok (s2b "a b" ++ NUL :: s2b "b " ++ NUL :: s2b "xy", 3).
Proof.
  split; [|vm_compute; reflexivity]. split; [|eexists; reflexivity].
  unfold nul_free. vm_compute. intuition discriminate.
Qed.

(** Splitting cuts at the leftmost non-overlapping separators (for several
    separators: the first one in argument order that matches). *)
Theorem C15_split :
  forall b s seps l, holds b s -> s <> [] -> Forall nul_free seps -> pieces seps s l ->
  (a <- stream_split b (map cs seps) ;; strv a) = Ok l.
Proof. exact split_ok. Qed.
Print Assumptions C15_split.

(** such a cutting exists and is unique *)
Theorem C15_pieces_unique :
  forall seps s, exists l, pieces seps s l /\ forall l', pieces seps s l' -> l' = l.
Proof.
  intros seps s. destruct (pieces_exist seps s) as [l P]. exists l. split; [exact P|]. exact (pieces_fun seps s l P).
Qed.
Print Assumptions C15_pieces_unique.

(** With one separator no piece contains it and joining the pieces gives the
    string back. *)
Theorem C15_split_join :
  forall b s sep, holds b s -> s <> [] -> nul_free sep -> sep <> [] ->
  exists l, (a <- stream_split b [cs sep] ;; strv a) = Ok l /\
    Forall (fun x => ~ occurs sep x) l /\
    stream_join l sep = Ok (Some (cs s)).
Proof.
  intros b s sep Hb Hs Hsep Hne. destruct (pieces_exist [sep] s) as [l P]. exists l.
  split; [apply (split_ok b s [sep] l); auto|]. split; [eapply pieces_clean; eauto|].
  rewrite join_ok by (eapply pieces_cons; eauto). rewrite (pieces_joined _ _ _ P). reflexivity.
Qed.
Print Assumptions C15_split_join.

Example C15_case :
  (a <- stream_split (cs (s2b "aaa,b,,")) [cs (s2b "aa"); cs (s2b ",")] ;; strv a)
    = Ok [[]; s2b "a"; s2b "b"; []; []] /\
  (a <- stream_split (cs (s2b "ab--c--")) [cs (s2b "--")] ;; strv a) = Ok [s2b "ab"; s2b "c"; []].
Proof. vm_compute. auto. Qed.

(** the empty string is excluded: it splits into no string at all *)
Theorem C15_split_empty :
  forall rest seps, (a <- stream_split (NUL :: rest) seps ;; strv a) = Ok [].
Proof. exact split_empty. Qed.
Print Assumptions C15_split_empty.

Theorem C15_join :
  forall l sep, l <> [] -> stream_join l sep = Ok (Some (cs (joined sep l))).
Proof. exact join_ok. Qed.
Print Assumptions C15_join.

Theorem C15_clean_split :
  forall l, clean_split l = filter (fun s => negb (bytes_eqb s [])) l.
Proof. exact clean_split_ok. Qed.
Print Assumptions C15_clean_split.

(** Replacing: the result holds the text with every leftmost non-overlapping
    occurrence substituted, the size returned is its length, and (when something
    was replaced) the block allocated has exactly this size plus the terminator. *)
Theorem C16_replace :
  forall b s t rep l sl tl rl, holds b s -> nul_free t -> nul_free rep -> pieces [t] s l ->
  sl = -1 \/ sl = Z.of_nat (length s) -> tl = -1 \/ tl = Z.of_nat (length t) ->
  rl = -1 \/ rl = Z.of_nat (length rep) ->
  exists b', stream_replace b sl (cs t) tl (cs rep) rl = Ok (b', Z.of_nat (length (joined rep l))) /\
    holds b' (joined rep l) /\ (length l <> 1%nat -> b' = cs (joined rep l)).
Proof. exact replace_ok. Qed.
Print Assumptions C16_replace.

Example C16_case :
  stream_replace (cs (s2b "aaabab")) (-1) (cs (s2b "aa")) (-1) (cs (s2b "xyz")) 3
    = Ok (cs (s2b "xyzabab"), 7) /\
  stream_replace (cs (s2b "abc")) 3 (cs []) (-1) (cs (s2b "x")) (-1) = Ok (cs (s2b "abc"), 3).
Proof. vm_compute. auto. Qed.

(** Comparisons; every read stays inside blocks that end with the terminator. *)
Theorem C17_axl_cmp :
  forall a ra b rb, nul_free a -> nul_free b ->
  exists r, axl_cmp (Some (a ++ NUL :: ra)) (Some (b ++ NUL :: rb)) = Ok r /\ (r = true <-> a = b).
Proof. intros. eexists. split; [apply cmp_ok; assumption|]. apply bytes_eqb_eq. Qed.
Print Assumptions C17_axl_cmp.

Theorem C17_axl_casecmp :
  forall a ra b rb, nul_free a -> nul_free b ->
  exists r, axl_casecmp (Some (a ++ NUL :: ra)) (Some (b ++ NUL :: rb)) = Ok r /\
    (r = true <-> Forall2 same_letter a b).
Proof. intros. eexists. split; [apply casecmp_ok; assumption|]. apply case_eqb_ok. Qed.
Print Assumptions C17_axl_casecmp.

Theorem C17_axl_memcmp :
  forall a ra b rb n, nul_free a -> nul_free b -> 1 <= n ->
  exists r, axl_memcmp (a ++ NUL :: ra) (b ++ NUL :: rb) n = Ok r /\
    (r = true <-> exists p a' b', a = p ++ a' /\ b = p ++ b' /\ Z.of_nat (length p) = n).
Proof.
  intros a ra b rb n Ha Hb Hn. eexists. split; [apply memcmp_ok; assumption|].
  unfold start_eq. rewrite !andb_true_iff, !Nat.leb_le, bytes_eqb_eq. split.
  - intros [[L1 L2] E]. exists (firstn (Z.to_nat n) a), (skipn (Z.to_nat n) a), (skipn (Z.to_nat n) b).
    rewrite firstn_skipn. split; [reflexivity|]. split; [rewrite E, firstn_skipn; reflexivity|].
    rewrite firstn_length. lia.
  - intros (p & a' & b' & -> & -> & E). rewrite !app_length.
    replace (Z.to_nat n) with (length p) by lia. rewrite !firstn_app_len. repeat split; lia.
Qed.
Print Assumptions C17_axl_memcmp.

(** axl_list_equal_string: 0 exactly for equal strings; two empty strings are
    excluded, see the refutation. *)
Theorem C17_list_equal_string_partial :
  forall a ra b rb, nul_free a -> nul_free b -> a <> [] \/ b <> [] ->
  exists r, c_list_equal_string (Some (a ++ NUL :: ra)) (Some (b ++ NUL :: rb)) = Ok r /\
    (r = 0 <-> a = b) /\ r = list_equal_string a b.
Proof.
  intros. eexists. split; [apply list_equal_string_ok; assumption|]. split; [|reflexivity].
  destruct (bytes_eqb a b) eqn:E.
  - apply bytes_eqb_eq in E. tauto.
  - apply bytes_eqb_neq in E. split; [discriminate|contradiction].
Qed.
Print Assumptions C17_list_equal_string_partial.

(** on two empty strings it reads the byte after the terminator *)
Theorem C17_list_equal_string_empty_refuted :
  exists a b, nul_free a /\ nul_free b /\ c_list_equal_string (Some (cs a)) (Some (cs b)) = UB.
Proof. exists [], []. split; [exact nul_free_nil|]. split; [exact nul_free_nil|]. vm_compute. reflexivity. Qed.
Print Assumptions C17_list_equal_string_empty_refuted.

(** and when that memory is readable the answer is "different" unless it matches
    for 2^32 bytes: here both blocks hold the same byte after the terminator *)
Theorem C17_list_equal_string_empty_differs_refuted :
  exists a ra b rb, a = b /\ nul_free a /\
    c_list_equal_string (Some (a ++ NUL :: ra)) (Some (b ++ NUL :: rb)) = Ok 1.
Proof.
  exists [], (cs (s2b "x")), [], (cs (s2b "x")). split; [reflexivity|]. split; [exact nul_free_nil|].
  vm_compute. reflexivity.
Qed.
Print Assumptions C17_list_equal_string_empty_differs_refuted.

Example C17_case :
  axl_cmp (Some (cs (s2b "abc"))) (Some (cs (s2b "abd"))) = Ok false /\
  axl_casecmp (Some (cs (s2b "aBc-"))) (Some (cs (s2b "AbC-"))) = Ok true /\
  axl_memcmp (cs (s2b "abcd")) (cs (s2b "abc")) 3 = Ok true /\
  axl_memcmp (cs (s2b "ab")) (cs (s2b "ab")) 3 = Ok false.
Proof. vm_compute. auto. Qed.

(** Removal of the first occurrence ([first] = true): everything before and after
    it is kept. *)
Theorem C18_remove_first :
  forall b s v l x m, holds b s -> nul_free v -> pieces [v] s l -> l = x :: m ->
  exists b', stream_remove b (cs v) true = Ok b' /\ holds b' (x ++ joined v m) /\
    (length b' = length b /\ skipn (length s + 1) b' = skipn (length s + 1) b).
Proof. exact remove_first_ok. Qed.
Print Assumptions C18_remove_first.

(** Removal of all occurrences, when no proper beginning of the pattern is an end
    of the string (the condition cannot be dropped, see the refutation). *)
Theorem C18_remove_all_partial :
  forall b s v l, holds b s -> nul_free v ->
  (forall p q r, s = p ++ q -> v = q ++ r -> q = [] \/ r = []) ->
  pieces [v] s l ->
  exists b', stream_remove b (cs v) false = Ok b' /\ holds b' (concat l) /\
    (length b' = length b /\ skipn (length s + 1) b' = skipn (length s + 1) b).
Proof. exact remove_all_ok. Qed.
Print Assumptions C18_remove_all_partial.

Example C18_case :
  stream_remove (cs (s2b "a--b--c")) (cs (s2b "--")) false = Ok (s2b "abc" ++ NUL :: s2b "c-c" ++ [NUL]) /\
  stream_remove (cs (s2b "a--b--c")) (cs (s2b "--")) true = Ok (s2b "ab--c" ++ NUL :: s2b "c" ++ [NUL]).
Proof. vm_compute. auto. Qed.

(** removing "ab" from "aba" writes before the string *)
Theorem C18_remove_all_underrun_refuted :
  exists s v, nul_free s /\ nul_free v /\ stream_remove (cs s) (cs v) false = UB.
Proof.
  exists (s2b "aba"), (s2b "ab"). unfold nul_free. vm_compute.
  split; [intuition discriminate|]. split; [intuition discriminate|]. reflexivity.
Qed.
Print Assumptions C18_remove_all_underrun_refuted.

(** removing "ab" from "cccaba" also deletes the last "a" and one "c" *)
Theorem C18_remove_all_excess_refuted :
  exists s v b' t l, nul_free s /\ pieces [v] s l /\ stream_remove (cs s) (cs v) false = Ok b' /\
    holds b' t /\ t <> concat l.
Proof.
  exists (s2b "cccaba"), (s2b "ab"). eexists _, (s2b "cc"), [s2b "ccc"; s2b "a"].
  split; [unfold nul_free; vm_compute; intuition discriminate|].
  split.
  { simpl. repeat (apply pieces_char; [reflexivity|]). eapply pieces_cut; [reflexivity|].
    apply pieces_char; [reflexivity|]. constructor. }
  split; [vm_compute; reflexivity|]. split; [|vm_compute; discriminate].
  split; [unfold nul_free; vm_compute; intuition discriminate|]. eexists. reflexivity.
Qed.
Print Assumptions C18_remove_all_excess_refuted.

Theorem C16_concat :
  forall a s b t, holds a s -> holds b t -> stream_concat a b = Ok (cs (s ++ t)).
Proof. exact concat_ok. Qed.
Print Assumptions C16_concat.
