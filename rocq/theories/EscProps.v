(** C19, C20 and C45: escaping, its buffers, and reading text back. *)
From Verif Require Import Prelude StrModel StrSpec StrProofs EscModel EscSpec EscExec EscProofs EscProofs2.
Open Scope Z_scope.

(** ** C19 *)

(** For every string: the size pass and the copying pass produce a text without
    markup; when nothing was to be escaped it is the string itself; translating it
    in place gives the string back, with its size. *)
Theorem C19_escape_translate :
  forall s rest, nul_free s ->
  exists bad add e b,
    has_invalid_chars (s ++ NUL :: rest) (-1) = Ok (bad, add) /\
    content_copy_and_escape (s ++ NUL :: rest) (Z.of_nat (length s)) add = Ok (cs e) /\
    no_markup e /\ nul_free e /\ (bad = false -> e = s) /\
    content_translate_defaults (cs e) (Z.of_nat (length e)) = Ok (b, Z.of_nat (length s)) /\ holds b s.
Proof. exact escape_roundtrip. Qed.
Print Assumptions C19_escape_translate.

(** The same through the attribute functions: the stored form and the value
    returned by axl_node_get_attribute_value_trans. *)
Theorem C19_attribute_value :
  forall s rest, nul_free s ->
  exists e b, attr_escape (s ++ NUL :: rest) = Ok (cs e) /\ no_markup e /\ nul_free e /\
    attr_value_trans (cs e) = Ok b /\ holds b s.
Proof. exact attr_roundtrip. Qed.
Print Assumptions C19_attribute_value.

Example C19_case :
  let s := s2b "a<b>&amp; ]]> 'x'" in
  nul_free s /\
  has_invalid_chars (cs s) (-1) = Ok (true, 23) /\
  content_copy_and_escape (cs s) 17 23 = Ok (cs (s2b "a&lt;b&gt;&amp;amp; ]]&gt; &apos;x&apos;")) /\
  attr_value_trans (cs (s2b "a&lt;b&gt;&amp;amp;")) = Ok (cs (s2b "a<b>&amp;") ++ s2b "&amp;amp;" ++ [NUL]).
Proof.
  split; [apply nul_free_lit; reflexivity|]. vm_compute. auto.
Qed.

(** ** C20 *)

(** For every content and every size argument (-1, or a size not larger than the
    content that does not fall inside a "]]>"), in both variants: the block
    allocated holds exactly the bytes written and one terminator. *)
Theorem C20_escape_exact_partial :
  forall s rest n cdata f r, nul_free s -> s = f ++ r ->
  (n = -1 /\ r = [] \/ n = Z.of_nat (length f) /\ not_across (length f) s) ->
  exists bad add e,
    has_invalid_chars_internal (s ++ NUL :: rest) n cdata = Ok (bad, add) /\
    copy_and_escape (s ++ NUL :: rest) (Z.of_nat (length f)) add cdata = Ok (cs e) /\
    Z.of_nat (length e) = Z.of_nat (length f) + add.
Proof.
  intros s rest n cdata f r Hn E H. assert (S : selects s n f r) by (split; assumption).
  eexists. eexists. eexists. split; [apply (has_invalid_ok s n f r); assumption|].
  split; [apply (copy_and_escape_ok s n f r); assumption|]. lia.
Qed.
Print Assumptions C20_escape_exact_partial.

(** axl_node_set_content and axl_node_set_cdata_content store a block that starts
    with as many bytes as the recorded size, followed (in the first case, and when
    the whole content is set, in the second) by its terminator. *)
Theorem C20_set_content_partial :
  forall items s rest n f r, nul_free s -> s = f ++ r ->
  (n = -1 /\ r = [] \/ n = Z.of_nat (length f) /\ not_across (length f) s) ->
  (exists e, node_set_content items (s ++ NUL :: rest) n =
     Ok (items ++ [ItContent (cs e) (Z.of_nat (length e))])) /\
  (exists e t, node_set_cdata_content items (s ++ NUL :: rest) n =
     Ok (items ++ [ItCdata (cs (e ++ t)) (Z.of_nat (length e))]) /\ (r = [] -> t = [])).
Proof.
  intros items s rest n f r Hn E H. assert (S : selects s n f r) by (split; assumption).
  split; [eexists; apply (set_content_ok items s n f r); assumption|].
  destruct (grows true f) eqn:G.
  - exists (esc true f), []. rewrite app_nil_r. split; [|reflexivity].
    rewrite (set_cdata_ok items s n f r) by assumption. rewrite G. reflexivity.
  - exists f, r. split; [|tauto]. rewrite (set_cdata_ok items s n f r) by assumption. rewrite G, (grows_false _ _ G), E. reflexivity.
Qed.
Print Assumptions C20_set_content_partial.

Theorem C20_set_attribute :
  forall s rest, nul_free s -> exists e, attr_escape (s ++ NUL :: rest) = Ok (cs e).
Proof. intros s rest H. eexists. apply attr_escape_ok. exact H. Qed.
Print Assumptions C20_set_attribute.

(** The restriction on the size cannot be dropped: a size that ends inside "]]>"
    writes outside the block *)
Theorem C20_overflow_refuted :
  exists s n, nul_free s /\ 0 <= n <= Z.of_nat (length s) /\ node_set_content [] (cs s) n = UB.
Proof.
  exists (s2b "]]>"), 1. split; [apply nul_free_lit; reflexivity|]. split; [vm_compute; split; discriminate|].
  vm_compute. reflexivity.
Qed.
Print Assumptions C20_overflow_refuted.

(** or leaves the block without terminator, so that reading the text back runs
    past it. *)
Theorem C20_unterminated_refuted :
  exists s n items, nul_free s /\ 0 <= n <= Z.of_nat (length s) /\ node_set_content [] (cs s) n = Ok items /\
    node_get_content_trans items = UB.
Proof.
  exists (s2b "]]>"), 2. eexists. split; [apply nul_free_lit; reflexivity|]. split; [vm_compute; split; discriminate|].
  split; vm_compute; reflexivity.
Qed.
Print Assumptions C20_unterminated_refuted.

Example C20_case :
  let s := s2b "a]]>b<c" in
  not_across 5 s /\
  node_set_content [] (cs s) 5 = Ok [ItContent (cs (s2b "a]]&gt;b")) 8] /\
  node_set_cdata_content [] (cs s) 5 = Ok [ItCdata (cs (s2b "a]]>]]&gt;<![CDATA[b")) 20].
Proof.
  split; [|vm_compute; auto].
  intros a b E. destruct (Nat.le_gt_cases (length a + 3) 5) as [L|L]; [right; exact L|].
  left. destruct (Nat.le_gt_cases 5 (length a)) as [K|K]; [exact K|]. exfalso.
  do 5 (destruct a as [|? a]; [cbn in L, K; (lia || (vm_compute in E; discriminate))|injection E as _ E]).
  cbn in K. lia.
Qed.

(** ** C45 *)

(** After any sequence of text and CDATA settings (mixed with other items), where no
    CDATA text contains "]]>", axl_node_get_content_trans returns the
    concatenation of the texts and its size (NULL when there was none). *)
Theorem C45_texts_read_back_partial :
  forall ops, Forall (fun o => match o with
                               | SetText s => nul_free s
                               | SetCdata s => nul_free s /\ ~ occurs cdata_end s
                               | SetOther => True
                               end) ops ->
  let l := flat_map (fun o => match o with SetText s | SetCdata s => [s] | SetOther => [] end) ops in
  exists items, run_texts [] ops = Ok items /\
    (l = [] -> node_get_content_trans items = Ok (None, 0)) /\
    (l <> [] -> exists b, node_get_content_trans items = Ok (Some b, Z.of_nat (length (concat l))) /\
                          holds b (concat l)).
Proof.
  intros ops H l. destruct (texts_read_back ops H) as (items & E & K). exists items. split; [exact E|].
  assert (El : l = texts ops).
  { unfold l. clear. induction ops as [|[s|s|] ops IH]; cbn; try rewrite IH; reflexivity. }
  rewrite El. destruct (texts ops); split; intro N; try discriminate; try contradiction; exact K.
Qed.
Print Assumptions C45_texts_read_back_partial.

(** A CDATA text with "]]>" in it is not read back. *)
Theorem C45_cdata_end_refuted :
  exists s items b n, nul_free s /\ run_texts [] [SetCdata s] = Ok items /\
    node_get_content_trans items = Ok (Some b, n) /\ ~ holds b s /\ n <> Z.of_nat (length s).
Proof.
  exists (s2b "a]]>b"). eexists. eexists. eexists. split; [apply nul_free_lit; reflexivity|].
  split; [vm_compute; reflexivity|]. split; [vm_compute; reflexivity|]. split; [|vm_compute; discriminate].
  intros [_ [r E]]. vm_compute in E. discriminate.
Qed.
Print Assumptions C45_cdata_end_refuted.

(** axl_node_get_content_trim: the first text, without surrounding white space; the
    item is changed accordingly. *)
Theorem C45_trimmed_text :
  forall pre s post cdata, nul_free s ->
  let mk b n := if cdata : bool then ItCdata b n else ItContent b n in
  exists b t,
    node_get_content_trim (repeat ItOther pre ++ mk (cs s) (Z.of_nat (length s)) :: post) =
    Ok (repeat ItOther pre ++ mk b (Z.of_nat (length t)) :: post, (b, Z.of_nat (length t))) /\
    trimmed s t /\ holds b t.
Proof. exact get_trim_ok. Qed.
Print Assumptions C45_trimmed_text.

Example C45_case :
  let ops := [SetText (s2b "a<b"); SetOther; SetCdata (s2b "&lt;x>"); SetText []] in
  exists items b, run_texts [] ops = Ok items /\
    node_get_content_trans items = Ok (Some b, 9) /\ cstr b = s2b "a<b&lt;x>".
Proof. eexists. eexists. split; [vm_compute; reflexivity|]. split; vm_compute; reflexivity. Qed.
