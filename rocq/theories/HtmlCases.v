(** Pages for particular documents. *)
From Verif Require Import Prelude StrModel StrSpec AttrModel TreeModel ParseModel XmlSpec ParseProofs GramProofs4 SaveProofs2 CutCases SoundSpec NsCases EqSpec HtmlModel HtmlSpec HtmlProofs.
Open Scope nat_scope.
Open Scope list_scope.

(** ** a browser *)
Fixpoint tag_rest (s : bytes) : option bytes :=
  match s with
  | [] => None
  | c :: r => if Ascii.eqb ">" c then Some r else if Ascii.eqb "<" c then None else tag_rest r
  end.
Definition letter_b (c : ascii) : bool := let n := N_of_ascii c in ((65 <=? n) && (n <=? 90) || (97 <=? n) && (n <=? 122))%N.
Fixpoint see (fuel : nat) (s : bytes) : option bytes :=
  match fuel with
  | O => None
  | S f =>
    match s with
    | [] => Some []
    | c :: r =>
      if Ascii.eqb "<" c then
        match r with
        | l :: r => if letter_b l then match tag_rest r with Some r => see f r | None => None end
                    else if Ascii.eqb "/" l then
                      match r with
                      | l :: r => if letter_b l then match tag_rest r with Some r => see f r | None => None end else None
                      | [] => None
                      end
                    else None
        | [] => None
        end
      else if Ascii.eqb "&" c then
        match r with
        | x :: y :: z :: r => if bytes_eqb [x; y; z] (str "lt;") then option_map (cons "<"%char) (see f r)
                              else if bytes_eqb [x; y; z] (str "gt;") then option_map (cons ">"%char) (see f r) else None
        | _ => None
        end
      else option_map (cons c) (see f r)
    end
  end.
Lemma tag_rest_ok s : forall r, tag_rest s = Some r -> exists b, s = b ++ str ">" ++ r /\ has "<" b = false /\ has ">" b = false.
Proof.
  induction s as [|c s IH]; intros r; cbn [tag_rest]; [discriminate|]. destruct (Ascii.eqb_spec ">" c) as [<-|N]; [intros H; injection H as ->; exists []; auto|].
  destruct (Ascii.eqb_spec "<" c) as [<-|N2]; [discriminate|]. intros H. destruct (IH r H) as (b & -> & H1 & H2). exists (c :: b). split; [reflexivity|].
  unfold has in *. cbn [existsb]. rewrite H1, H2, !orb_false_r. split; apply Ascii.eqb_neq; assumption.
Qed.
Lemma letter_b_ok c : letter_b c = true -> letter c.
Proof. unfold letter_b, letter. intros H. apply orb_true_iff in H. rewrite !andb_true_iff, !N.leb_le in H. exact H. Qed.
Lemma see_ok : forall fuel s t, see fuel s = Some t -> displays s t.
Proof.
  induction fuel as [|f IH]; intros s t; cbn [see]; [discriminate|]. destruct s as [|c r]; [intros H; injection H as <-; constructor|].
  destruct (Ascii.eqb_spec "<" c) as [<-|N1].
  - destruct r as [|l r]; [discriminate|]. destruct (letter_b l) eqn:L.
    + destruct (tag_rest r) as [r'|] eqn:E; [|discriminate]. intros H. destruct (tag_rest_ok r r' E) as (b & -> & H1 & H2).
      replace ("<"%char :: l :: b ++ str ">" ++ r') with ((str "<" ++ l :: b ++ str ">") ++ r') by (cbn; rewrite <- app_assoc; reflexivity).
      apply displays_tag; [exists l, b; split; [apply letter_b_ok, L|auto]|apply IH, H].
    + destruct (Ascii.eqb_spec "/" l) as [<-|N2]; [|discriminate]. destruct r as [|l r]; [discriminate|]. destruct (letter_b l) eqn:L2; [|discriminate].
      destruct (tag_rest r) as [r'|] eqn:E; [|discriminate]. intros H. destruct (tag_rest_ok r r' E) as (b & -> & H1 & H2).
      replace ("<"%char :: "/"%char :: l :: b ++ str ">" ++ r') with ((str "</" ++ l :: b ++ str ">") ++ r') by (cbn; rewrite <- app_assoc; reflexivity).
      apply displays_tag; [exists l, b; split; [apply letter_b_ok, L2|auto]|apply IH, H].
  - destruct (Ascii.eqb_spec "&" c) as [<-|N2].
    + destruct r as [|x [|y [|z r]]]; try discriminate. destruct (bytes_eqb [x; y; z] (str "lt;")) eqn:E1.
      * apply bytes_eqb_eq in E1. injection E1 as -> -> ->. destruct (see f r) as [t'|] eqn:E; [|discriminate]. intros H. injection H as <-. apply (displays_lt r t'), IH, E.
      * destruct (bytes_eqb [x; y; z] (str "gt;")) eqn:E2; [|discriminate]. apply bytes_eqb_eq in E2. injection E2 as -> -> ->.
        destruct (see f r) as [t'|] eqn:E; [|discriminate]. intros H. injection H as <-. apply (displays_gt r t'), IH, E.
    + destruct (see f r) as [t'|] eqn:E; [|discriminate]. intros H. injection H as <-. apply displays_char; auto.
Qed.

(** the document of a tree, its page and what is seen of it *)
Definition text_of (x : xnode) : bytes := elem_xml None 0 x.
Definition page_of (skip : bool) (x : xnode) : res bytes :=
  o <- doc_parse (text_of x) ;; match o with Some d => htmlize skip None d | None => UB end.
Definition seen_of (skip : bool) (x : xnode) : option bytes := match page_of skip x with Ok p => see (S (length p)) p | _ => None end.
Lemma seen_ok skip x seen : seen_of skip x = Some seen -> exists d page, doc_parse (text_of x) = Ok (Some d) /\ htmlize skip None d = Ok page /\ displays page seen.
Proof.
  unfold seen_of, page_of. destruct (doc_parse (text_of x)) as [[d|]| |]; cbn [bind]; try discriminate. destruct (htmlize skip None d) as [page| |] eqn:E; try discriminate.
  intros H. exists d, page. split; [reflexivity|]. split; [exact E|]. exact (see_ok _ _ _ H).
Qed.
Lemma text_of_ok x : proper x -> pad_tree x = x -> doc_text (text_of x) None false [] x.
Proof. intros P E. pose proof (node_written None x P (or_introl eq_refl)) as H. rewrite E in H. exact H. Qed.

Definition q : bytes := ["034"%char].
Definition x_empty : xnode := XNode (str "a") [] [XElem (XNode (str "b") [] []); XText (str "t")].
Definition x_pi : xnode := XNode (str "a") [] [XPi (str "p") (Some (str "q")); XText (str "t")].
Definition x_ref : xnode := XNode (str "a") [] [XText (str "1 &lt; 2")].
Definition x_quote : xnode := XNode (str "a") [(str "k", Some (str "say " ++ q ++ str "x" ++ q))] [].
Definition x_mark : xnode := XNode (str "a") [(str "k", Some (str "<i>"))] [].
Definition x_line : xnode := XNode (str "a") [(str "k", Some (str "1"))] [XText (str "t")].
Definition x_case : xnode :=
  XNode (str "a") [(str "k", Some (str "it's")); (str "l", Some (str ">")); (str "m", Some [])]
    [XText (str "x > y"); XElem (XNode (str "b") [] [XCdata (str "<b>]]"); XComment (str " c ")]); XElem (XNode (str "d") [(str "e", Some (str "2"))] []); XText (str "u")].

Lemma lost x seen : proper x -> pad_tree x = x -> seen_of false x = Some seen -> doc_parse seen = Ok None ->
  exists text d page seen, doc_text text None false [] x /\ doc_parse text = Ok (Some d) /\ htmlize false None d = Ok page /\ displays page seen /\ doc_parse seen = Ok None.
Proof. intros P E S N. destruct (seen_ok false x seen S) as (d & page & H1 & H2 & H3). exists (text_of x), d, page, seen. split; [apply text_of_ok; assumption|auto]. Qed.
Lemma changed (R : xnode -> xnode -> Prop) x y seen : proper x -> pad_tree x = x -> seen_of false x = Some seen -> (exists d n, doc_parse seen = Ok (Some d) /\ d_root d = Some n /\ shows n y) -> ~ R x y ->
  exists text d page seen d' n', doc_text text None false [] x /\ doc_parse text = Ok (Some d) /\ htmlize false None d = Ok page /\ displays page seen /\
    doc_parse seen = Ok (Some d') /\ d_root d' = Some n' /\ shows n' y /\ ~ R x y.
Proof.
  intros P E S (d' & n' & K1 & K2 & K3) N. destruct (seen_ok false x seen S) as (d & page & H1 & H2 & H3). exists (text_of x), d, page, seen, d', n'.
  split; [apply text_of_ok; assumption|auto 8].
Qed.
Ltac proper_tac := case_tac.
Lemma p_empty : proper x_empty. Proof. proper_tac. Qed.
Lemma p_pi : proper x_pi.
Proof. proper_tac. Qed.
Lemma p_ref : proper x_ref. Proof. proper_tac. Qed.
Lemma p_quote : proper x_quote. Proof. proper_tac. Qed.
Lemma p_mark : proper x_mark. Proof. proper_tac. Qed.
Lemma p_line : proper x_line. Proof. proper_tac. Qed.
Lemma p_case : proper x_case. Proof. proper_tac. Qed.
Ltac plain_tac := repeat match goal with
  | |- plain_attr _ => let v := fresh in let E := fresh in intros v E; injection E as <-; repeat split; reflexivity
  | |- plain_text _ => reflexivity
  | |- _ <> [] \/ _ => (left; discriminate) || (right; discriminate)
  | |- _ => constructor
  end.
Lemma s_case : showable x_case. Proof. plain_tac. Qed.
