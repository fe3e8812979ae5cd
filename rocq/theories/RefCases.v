(** Definitions with parameter entities. *)
From Verif Require Import Prelude StrSpec StreamModel XmlSpec DtdModel DtdSpec DtdDocModel DtdDocSpec LoadModel LoadSpec RefSpec LoadCases.
Open Scope nat_scope.
Open Scope list_scope.

(** ** all declarations of parameter entities and references in a text *)
Fixpoint pre (P : ascii -> bool) (s : bytes) : list (bytes * bytes) :=
  ([], s) :: match s with c :: s => if P c then map (fun x => (c :: fst x, snd x)) (pre P s) else [] | [] => [] end.
Lemma pre_in P : forall p r, forallb P p = true -> In (p, r) (pre P (p ++ r)).
Proof.
  induction p as [|c p IH]; intros r H; [destruct r; left; reflexivity|]. cbn [forallb] in H. apply andb_true_iff in H as [H1 H2]. right. cbn [app]. rewrite H1.
  apply in_map_iff. exists (p, r). split; [reflexivity|apply IH, H2].
Qed.
Fixpoint starts (p s : bytes) : option bytes :=
  match p, s with [], _ => Some s | c :: p, d :: s => if Ascii.eqb c d then starts p s else None | _, _ => None end.
Lemma starts_in p r : starts p (p ++ r) = Some r.
Proof. induction p as [|c p IH]; [reflexivity|]. cbn [starts app]. rewrite Ascii.eqb_refl. exact IH. Qed.
Definition after_all (p : bytes) (l : list bytes) : list bytes := flat_map (fun s => match starts p s with Some r => [r] | None => [] end) l.
Lemma after_all_in p l r : In (p ++ r) l -> In r (after_all p l).
Proof. intros I. apply in_flat_map. exists (p ++ r). split; [exact I|]. rewrite starts_in. left. reflexivity. Qed.
Definition blanks (l : list bytes) : list bytes := flat_map (fun s => map snd (pre white s)) l.
Lemma blanks_in w r l : blank w -> In (w ++ r) l -> In r (blanks l).
Proof. intros W I. apply in_flat_map. exists (w ++ r). split; [exact I|]. apply in_map_iff. exists (w, r). split; [reflexivity|apply pre_in, W]. Qed.
Definition decls_in (text : bytes) : list (bytes * bytes) :=
  flat_map (fun p => flat_map (fun s => match s with
                                        | q :: s => if Ascii.eqb q "034" || Ascii.eqb q "'" then map (fun x => (fst p, fst x)) (pre (fun c => negb (Ascii.eqb q c)) s) else []
                                        | [] => [] end) (blanks [snd p]))
    (flat_map (pre (fun c => negb (white c))) (blanks (after_all (str "%") (blanks (after_all (str "<!ENTITY") (map snd (pre (fun _ => true) text))))))).
Lemma has_none q v : XmlSpec.has q v = false -> forallb (fun c => negb (Ascii.eqb q c)) v = true.
Proof. unfold XmlSpec.has. induction v as [|c v IH]; [reflexivity|]. cbn [existsb forallb]. destruct (Ascii.eqb q c); [discriminate|exact IH]. Qed.
Lemma decls_in_all text n v : declares_parameter text n v -> In (n, v) (decls_in text).
Proof.
  intros (a & w & w0 & w1 & q & b & -> & W & W0 & N & W1 & Q & H). unfold decls_in. apply in_flat_map. exists (n, w1 ++ [q] ++ v ++ [q] ++ b). split.
  - apply in_flat_map. exists (n ++ w1 ++ [q] ++ v ++ [q] ++ b). split; [|apply pre_in, N]. eapply blanks_in; [exact W0|]. apply after_all_in. eapply blanks_in; [exact W|]. apply after_all_in.
    apply in_map_iff. exists (a, str "<!ENTITY" ++ w ++ str "%" ++ w0 ++ n ++ w1 ++ [q] ++ v ++ [q] ++ b). split; [reflexivity|]. apply pre_in. apply forallb_forall. reflexivity.
  - apply in_flat_map. exists (q :: v ++ [q] ++ b). split; [eapply blanks_in; [exact W1|left; reflexivity]|].
    replace (Ascii.eqb q "034" || Ascii.eqb q "'")%bool with true by (destruct Q as [->| ->]; reflexivity).
    apply in_map_iff. exists (v, [q] ++ b). split; [reflexivity|apply pre_in, has_none, H].
Qed.
Definition refs_in (v : bytes) : list bytes := flat_map (fun s => map fst (pre (fun c => negb (Ascii.eqb ";" c)) s)) (after_all (str "%") (map snd (pre (fun _ => true) v))).
Lemma refs_in_all v m : refers v m -> In m (refs_in v).
Proof.
  intros (H & a & b & ->). apply in_flat_map. exists (m ++ str ";" ++ b). split.
  - apply after_all_in. apply in_map_iff. exists (a, str "%" ++ m ++ str ";" ++ b). split; [reflexivity|]. apply pre_in, forallb_forall. reflexivity.
  - apply in_map_iff. exists (m, str ";" ++ b). split; [reflexivity|apply pre_in, has_none, H].
Qed.
Definition check_rank (rank : bytes -> nat) (text : bytes) : bool := forallb (fun p => forallb (fun m => rank m <? rank (fst p)) (refs_in (snd p))) (decls_in text).
Lemma check_rank_ok rank text : check_rank rank text = true -> no_cycle text.
Proof.
  intros H. exists rank. intros n v m D R. unfold check_rank in H. rewrite forallb_forall in H. specialize (H _ (decls_in_all _ _ _ D)). rewrite forallb_forall in H.
  specialize (H _ (refs_in_all _ _ R)). apply Nat.ltb_lt in H. exact H.
Qed.
Definition check_inside (text : bytes) : bool := forallb (fun p => negb (XmlSpec.has "<" (snd p))) (decls_in text).
Lemma check_inside_ok text : check_inside text = true -> no_declaration_inside text.
Proof. intros H n v D. unfold check_inside in H. rewrite forallb_forall in H. specialize (H _ (decls_in_all _ _ _ D)). apply negb_true_iff in H. exact H. Qed.

(** ** one entity in the value of another one *)
Definition nested_refs : bytes := str "<!ENTITY % t 'CDATA #REQUIRED'><!ENTITY % at 'ID #IMPLIED y %t; z %t;'><!ELEMENT a EMPTY><!ATTLIST a x %at; u (v|w) #IMPLIED>".
Definition nested_rank (n : bytes) : nat := if bytes_eqb n (str "at") then 2 else if bytes_eqb n (str "t") then 1 else 0.
Definition nested_atts : list at_decl := [AtDecl (str "x") AId AImplied None; AtDecl (str "y") ACdata ARequired None; AtDecl (str "z") ACdata ARequired None;
  AtDecl (str "u") (AEnum [str "v"; str "w"]) AImplied None].

(** ** an attribute after others *)
Definition ref_before : bytes := [] ++ t_a ++ [] ++ t_par ++ str " ".
Definition ref_decls : list decl := [DElement (str "a") CEmpty; DEntity (Entity (str "type") EParameter (Some (str "CDATA")))].
Definition ref_atts : list at_decl := [AtDecl (str "id") AId ARequired None].
Lemma ref_text : dtd_text ref_before ref_decls.
Proof.
  unfold ref_before, ref_decls. apply dtd_more; [constructor; reflexivity|apply decl_element; [gap|tok|gap|constructor|reflexivity]|].
  apply (dtd_more [] t_par _ (str " ")); [constructor; reflexivity| |constructor; constructor; reflexivity].
  apply decl_parameter; [gap|gap|tok|gap|quo|reflexivity].
Qed.
Lemma ref_atts_text : atts_text (t_at1 ++ []) ref_atts.
Proof. apply atts_more; [apply AttText; [gap|tok|gap|constructor|gap|constructor]|constructor]. Qed.
Lemma ref_good : NoDup (map fst (elements_of ref_decls)) /\ (forall x, atts_good (atts_of ref_decls x)) /\ atts_good (atts_of ref_decls (str "a") ++ ref_atts).
Proof.
  split; [|split].
  - constructor; [intros []|constructor].
  - intros x. split; [intros ? ? []|]. split; [intros ? []|intros ? ? ? []].
  - split; [intros a b [<-|[]] [<-|[]] _ _; reflexivity|]. split; [intros a [<-|[]] _; discriminate|intros a vs v [<-|[]]; discriminate].
Qed.
Lemma ref_parameter : parameter ref_decls (str "type") (str "CDATA").
Proof. exists [DElement (str "a") CEmpty], []. split; [reflexivity|]. intros o [H|[]]. discriminate. Qed.

(** ** values that do not start at once, and references in other places *)
Definition later_value (v : bytes) : bytes := str "<!ELEMENT a EMPTY><!ENTITY % s 'CDATA'><!ENTITY % t '" ++ v ++ str "'>".
