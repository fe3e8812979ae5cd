(** From the text to the page and back. *)
From Coq Require Import Permutation.
From Verif Require Import Prelude StrModel StrSpec AttrModel TreeModel ParseModel XmlSpec ParseProofs GramProofs GramProofs2 GramProofs3 GramProofs4 GramProofs5 SoundSpec EqSpec EqProofs4 HtmlModel HtmlSpec HtmlProofs HtmlProofs2.
Open Scope nat_scope.
Open Scope list_scope.

Scheme showable_mut := Minimality for showable Sort Prop
  with showable_items_mut := Minimality for showable_items Sort Prop.
Combined Scheme showable_both from showable_mut, showable_items_mut.
Lemma showable_filled : (forall x, showable x -> filled x) /\ (forall l, showable_items l -> filled_items l).
Proof.
  apply showable_both; intros; try (constructor; assumption).
  all: apply filled_other; [discriminate|discriminate|assumption].
Qed.

Lemma seen_again skip cls text encoding standalone pis x : doc_text text encoding standalone pis x -> nul_free text -> closed_quotes text -> showable x -> class_ok cls ->
  exists d page seen d' n' y, doc_parse text = Ok (Some d) /\ htmlize skip cls d = Ok page /\ displays page seen /\
    doc_parse seen = Ok (Some d') /\ d_root d' = Some n' /\ shows n' y /\ same true x y.
Proof.
  intros D Nt Ct Sx Hc. destruct (doc_text_ok _ _ _ _ _ D) as (d & n & H1 & H2 & H3 & _).
  pose proof (parse_regular _ _ _ Nt Ct H1 H2) as Rn. pose proof (doc_text_filled _ _ _ _ _ D (proj1 showable_filled x Sx)) as Px.
  destruct (page_shown skip cls d n x Hc H2 Rn H3 Px Sx) as (page & w & t & w' & y & E & Dp & Bw & Bw' & T & Q).
  assert (D' : doc_text (w ++ t ++ w') None false [] y).
  { apply (doc_plain [] [] w [] t y w'); auto; [constructor|constructor; exact Bw|]. intros _ z Ez. subst w. unfold blank in Bw. discriminate. }
  destruct (doc_text_ok _ _ _ _ _ D') as (d' & n' & K1 & K2 & K3 & _). exists d, page, (w ++ t ++ w'), d', n', y. auto 8.
Qed.
