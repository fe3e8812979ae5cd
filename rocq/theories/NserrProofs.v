(** Errors of the validation of namespaces. *)
From Coq Require Import Permutation.
From Verif Require Import Prelude HashModel HashSpec HashExec HashProofs HashStrProofs StrModel StrSpec StrProofs EscProofs AttrModel AttrSpec AttrExec AttrProofs
  TreeModel ParseModel XmlSpec SoundSpec DumpProofs EqModel EqSpec EqProofs EqProofs2 EqProofs3 NsModel NsExec NsSpec NsProofs NsProofs2 NserrModel NserrSpec.
Open Scope nat_scope.
Open Scope list_scope.

(** ** the events do not change the result *)
Definition drop {A} (r : res (A * bool * list event)) : res (A * bool) := ' (e, ok, _) <- r ;; Ok (e, ok).
Lemma install_same l : forall t df, install_decls l t df = drop (nse_install l t df).
Proof.
  induction l as [|[a v] l IH]; intros t df; cbn [install_decls nse_install]; [reflexivity|].
  destruct (axl_memcmp (cs a) (cs (s2b "xmlns")) 5) as [m| |]; cbn [bind drop]; trivial. destruct m; cbn [negb]; [|apply IH].
  destruct (Nat.eqb (length a) 5); [destruct df; [reflexivity|apply IH]|].
  destruct (hash_exists _ _ _ _ _ _ _) as [x| |]; cbn [bind drop]; trivial. destruct x; [reflexivity|].
  destruct (hash_insert_full _ _ _ _ _ _ _ _ _ _) as [h| |]; cbn [bind drop]; trivial.
Qed.
Lemma validate_same : forall e up, ns_validate up e = drop (nse_validate up e).
Proof.
  fix IH 1. intros [name a t childs] up. cbn [ns_validate nse_validate].
  assert (K : forall up, (fix go (l : list elem) : res (list elem * bool) :=
             match l with
             | [] => Ok ([], true)
             | c :: r => ' (c, ok) <- ns_validate up c ;; if negb ok then Ok (c :: r, false) else ' (r, ok) <- go r ;; Ok (c :: r, ok)
             end) childs =
    drop ((fix go (l : list elem) : res (list elem * bool * list event) :=
             match l with
             | [] => Ok ([], true, [])
             | c :: r => ' (c, ok, ev) <- nse_validate up c ;; if negb ok then Ok (c :: r, false, ev) else ' (r, ok, ev') <- go r ;; Ok (c :: r, ok, ev ++ ev')
             end) childs)).
  { clear - IH. intros up. induction childs as [|c childs IHc]; [reflexivity|]. rewrite IH.
    destruct (nse_validate up c) as [[[c' ok] ev]| |]; cbn [bind drop]; trivial. destruct ok; cbn [negb bind drop]; trivial. rewrite IHc.
    match goal with |- context [drop ?g] => destruct g as [[[r ok] ev']| |] end; reflexivity. }
  destruct (has_attributes a); cbn [bind].
  - destruct (attr_pairs a) as [l| |]; cbn [bind drop]; trivial. rewrite install_same.
    destruct (nse_install l None false) as [[[t' ok] ev]| |]; cbn [bind drop]; trivial. destruct ok; cbn [negb]; [|reflexivity].
    destruct (name_declared _ name) as [[]| |]; cbn [bind drop negb]; trivial. destruct (attrs_declared _ l) as [[]| |]; cbn [bind drop negb]; trivial.
    rewrite K. match goal with |- context [drop ?g] => destruct g as [[[r ok] ev']| |] end; reflexivity.
  - cbn [install_decls bind negb]. destruct (name_declared _ name) as [[]| |]; cbn [bind drop negb]; trivial. cbn [attrs_declared bind negb].
    rewrite K. match goal with |- context [drop ?g] => destruct g as [[[r ok] ev']| |] end; reflexivity.
Qed.

(** ** one error, and cursors in pairs *)
Definition told (ok : bool) (ev : list event) : Prop := (ok = true -> errors ev = []) /\ (ok = false -> exists er, errors ev = [er]).
Lemma errors_app a b : errors (a ++ b) = errors a ++ errors b.
Proof. apply flat_map_app. Qed.
Lemma cursors_app a : forall now b, cursors now a -> cursors false b -> cursors now (a ++ b).
Proof. induction a as [|[| |er] a IH]; intros now b H B; cbn [cursors app] in *; [subst; exact B|..]; [destruct H; split; auto|destruct H; split; auto|auto]. Qed.
Lemma install_told l : forall t df t' ok ev, nse_install l t df = Ok (t', ok, ev) ->
  told ok ev /\ (ok = true -> ev = []) /\ (ok = false -> cursors true ev) /\ (ok = false -> ev = [CursorFree; Error SeveralDefaults] \/ ev = [CursorFree; Error PrefixTwice]).
Proof.
  induction l as [|[a v] l IH]; intros t df t' ok ev; cbn [nse_install].
  - intros H. injection H as <- <- <-. split; [split; [reflexivity|discriminate]|]. split; [reflexivity|]. split; discriminate.
  - destruct (axl_memcmp (cs a) (cs (s2b "xmlns")) 5) as [m| |]; cbn [bind]; try discriminate. destruct m; cbn [negb]; [|apply IH].
    destruct (Nat.eqb (length a) 5); [destruct df; [|apply IH]|].
    + intros H. injection H as <- <- <-. split; [split; [discriminate|eexists; reflexivity]|]. split; [discriminate|]. cbn. auto.
    + destruct (hash_exists _ _ _ _ _ _ _) as [x| |]; cbn [bind]; try discriminate. destruct x.
      * intros H. injection H as <- <- <-. split; [split; [discriminate|eexists; reflexivity]|]. split; [discriminate|]. cbn. auto.
      * destruct (hash_insert_full _ _ _ _ _ _ _ _ _ _) as [h| |]; cbn [bind]; try discriminate. apply IH.
Qed.
Lemma told_pre a ok ev : errors a = [] -> told ok ev -> told ok (a ++ ev).
Proof. intros E [H1 H2]. split; intros O; rewrite errors_app, E; cbn [app]; auto. Qed.
Lemma validate_told : forall e up e' ok ev, nse_validate up e = Ok (e', ok, ev) -> told ok ev /\ cursors false ev.
Proof.
  fix IH 1. intros [name a t childs] up e' ok ev. cbn [nse_validate].
  assert (K : forall up l ok ev, (fix go (l : list elem) : res (list elem * bool * list event) :=
             match l with
             | [] => Ok ([], true, [])
             | c :: r => ' (c, ok, ev) <- nse_validate up c ;; if negb ok then Ok (c :: r, false, ev) else ' (r, ok, ev') <- go r ;; Ok (c :: r, ok, ev ++ ev')
             end) childs = Ok (l, ok, ev) -> told ok ev /\ cursors false ev).
  { clear - IH. intros up. induction childs as [|c childs IHc]; intros l ok ev.
    - intros H. injection H as <- <- <-. split; [split; [reflexivity|discriminate]|reflexivity].
    - pose proof (IH c up) as P. destruct (nse_validate up c) as [[[c' okc] evc]| |]; cbn [bind]; try discriminate.
      destruct (P _ _ _ eq_refl) as (T1 & C1). destruct okc; cbn [negb]; [|intros H; injection H as <- <- <-; auto].
      match goal with |- (bind ?g _) = _ -> _ => destruct g as [[[r okr] evr]| |] end; cbn [bind]; try discriminate.
      intros H. injection H as <- <- <-. destruct (IHc _ _ _ eq_refl) as (T2 & C2). split; [apply told_pre; [apply T1; reflexivity|exact T2]|apply cursors_app; assumption]. }
  destruct (has_attributes a); cbn [bind free_cursor].
  - destruct (attr_pairs a) as [l| |]; cbn [bind]; try discriminate.
    destruct (nse_install l None false) as [[[t' ok'] ev']| |] eqn:E; cbn [bind]; try discriminate.
    apply install_told in E. destruct E as (T1 & N1 & C1 & _). destruct ok'; cbn [negb].
    + rewrite N1 by reflexivity. cbn [app]. destruct (name_declared _ name) as [[]| |]; cbn [bind negb]; try discriminate.
      * destruct (attrs_declared _ l) as [[]| |]; cbn [bind negb]; try discriminate.
        -- match goal with |- (bind ?g _) = _ -> _ => destruct g as [[[r okr] evr]| |] eqn:G end; cbn [bind]; try discriminate.
           intros H. injection H as <- <- <-. apply K in G. destruct G as (T2 & C2). split; [apply (told_pre [CursorNew; CursorFree]); [reflexivity|exact T2]|cbn; auto].
        -- intros H. injection H as <- <- <-. split; [split; [discriminate|eexists; reflexivity]|cbn; auto].
      * intros H. injection H as <- <- <-. split; [split; [discriminate|eexists; reflexivity]|cbn; auto].
    + intros H. injection H as <- <- <-. split; [apply (told_pre [CursorNew]); [reflexivity|exact T1]|cbn; auto].
  - cbn [install_decls bind negb]. destruct (name_declared _ name) as [[]| |]; cbn [bind negb]; try discriminate.
    + cbn [attrs_declared bind negb].
      match goal with |- (bind ?g _) = _ -> _ => destruct g as [[[r okr] evr]| |] eqn:G end; cbn [bind]; try discriminate.
      intros H. injection H as <- <- <-. apply K in G. destruct G as (T2 & C2). split; [exact T2|exact C2].
    + intros H. injection H as <- <- <-. split; [split; [discriminate|eexists; reflexivity]|cbn; auto].
Qed.

(** ** where *)
Lemma attrs_blamed up s l : Forall2 trep up s -> Forall (fun p => nul_free (fst p)) l ->
  (forall a, In a (map fst l) -> ~ lookalike a /\ ~ uses_xml a) ->
  exists b, attrs_declared up l = Ok b /\ (b = true -> forall a, In a (map fst l) -> is_decl a \/ name_ok s a) /\
    (b = false -> exists a, In a (map fst l) /\ ~ is_decl a /\ ~ name_ok s a).
Proof.
  intros R. induction l as [|[a v] l IH]; intros N X; cbn [attrs_declared map].
  - exists true. split; [reflexivity|]. split; [intros _ a []|discriminate].
  - inversion N as [|? ? Na Nl]; subst. cbn [fst] in *. rewrite (starts_ok a Na). cbn [bind].
    destruct (IH Nl) as (b & E & B1 & B2); [intros c I; apply X; right; exact I|]. destruct (X a (or_introl eq_refl)) as [L U].
    assert (B2' : b = false -> exists c, In c (a :: map fst l) /\ ~ is_decl c /\ ~ name_ok s c) by (intros Hb; destruct (B2 Hb) as (c & I & Q); exists c; split; [right; exact I|exact Q]).
    destruct (starts a) eqn:St.
    + exists b. split; [exact E|]. split; [|exact B2']. intros Hb c [<-|I]; [|apply B1; assumption]. left. destruct (starts_decl a St L) as [->|[Ea _]]; [left; reflexivity|right; eexists; exact Ea].
    + destruct (name_declared_ok up s a R U) as (d & Ed & D). rewrite Ed. cbn [bind]. destruct d.
      * exists b. split; [exact E|]. split; [|exact B2']. intros Hb c [<-|I]; [|apply B1; assumption]. right. apply D. reflexivity.
      * exists false. split; [reflexivity|]. split; [discriminate|]. intros _. exists a. split; [left; reflexivity|]. split; [apply starts_not, St|]. intros Y. apply D in Y. discriminate.
Qed.
Definition first_fault (s : scope) (x : xnode) (er : nserr) : Prop :=
  exists path y s', at_path s x path y s' /\ says er y s' /\ forall path' y' s'', at_path s x path' y' s'' -> before path' path -> fine y' s''.
Lemma blamed : forall e x, okelem e x -> forall up s, Forall2 trep up s -> allp ordinary_here s x ->
  exists e' ok ev, nse_validate up e = Ok (e', ok, ev) /\ (ok = true -> allp fine s x) /\ (ok = false -> exists er, errors ev = [er] /\ first_fault s x er).
Proof.
  fix IH 1. intros [name a t0 childs] x H up s R O.
  assert (Hx : t0 = None /\ exists ats items m, x = XNode name ats items /\ nul_free name /\ arep a m /\ Forall vgood m /\ Permutation m ats /\ Forall2 okelem childs (elems items)).
  { inversion H; subst. split; [reflexivity|]. exists ats, items, m. auto 10. }
  destruct Hx as (-> & ats & items & m & -> & N & Ra & G & P & C). clear H.
  rewrite allp_unfold in O. destruct O as [[Ox Oa] Oc]. cbn [xname xattrs] in Ox, Oa.
  destruct (attr_pairs_ok a m Ra) as (l & El & Pl). cbn [nse_validate]. rewrite El. cbn [bind].
  assert (Pa : Permutation l ats) by (eapply perm_trans; eassumption).
  assert (Dl : NoDup (map fst l)).
  { eapply Permutation_NoDup; [apply Permutation_map; apply Permutation_sym; exact Pl|]. apply (arep_nodup _ _ Ra). }
  assert (Nl : Forall (fun p => nul_free (fst p)) l).
  { rewrite Forall_forall in *. intros p I. destruct (G p) as [X _]; [eapply Permutation_in; [exact Pl|exact I]|exact X]. }
  assert (Xl : forall c, In c (map fst l) -> ~ lookalike c /\ ~ uses_xml c).
  { intros c I. apply Oa. eapply Permutation_in; [apply Permutation_map; exact Pa|exact I]. }
  destruct (install_ok l None []) as (t' & Et & T'); [split; [exists []; split; reflexivity|reflexivity]|exact Nl|intros c I; apply Xl; exact I| |].
  { rewrite app_nil_r, map_rev. eapply Permutation_NoDup; [apply Permutation_rev|exact Dl]. }
  rewrite app_nil_r in T'. change (is_some (a_find (@nil (bytes * option bytes)) default_decl)) with false in Et.
  assert (Ei : (if has_attributes a then nse_install l None false else Ok (None, true, [])) = Ok (t', true, [])).
  { rewrite install_same in Et. destruct (nse_install l None false) as [[[t1 ok1] ev1]| |] eqn:E1; cbn [drop bind] in Et; try discriminate. injection Et as -> ->.
    apply install_told in E1 as X. destruct X as (_ & X & _). rewrite X in E1 by reflexivity. destruct (has_attributes a) eqn:Ha; [rewrite X by reflexivity; reflexivity|].
    injection El as <-. cbn [nse_install] in E1. injection E1 as <-. reflexivity. }
  rewrite Ei. cbn [bind negb]. rewrite app_nil_r.
  assert (Tr : trep match t' with Some t'0 => Some t'0 | None => None end ats).
  { replace (match t' with Some t'0 => Some t'0 | None => None end) with t' by (destruct t'; reflexivity).
    eapply trep_perm; [exact T'| |eapply perm_trans; [apply Permutation_sym, Permutation_rev|exact Pa]].
    rewrite map_rev. eapply Permutation_NoDup; [apply Permutation_rev|exact Dl]. }
  set (t := match t' with Some t'0 => Some t'0 | None => None end) in *.
  assert (R' : Forall2 trep (t :: up) (ats :: s)) by (constructor; assumption).
  set (pre := if has_attributes a then [CursorNew] else []). assert (Ep : errors pre = [] /\ errors (free_cursor (has_attributes a)) = []) by (unfold pre; destruct (has_attributes a); split; reflexivity).
  destruct Ep as (Ep & Ef).
  destruct (name_declared_ok (t :: up) (ats :: s) name R' Ox) as (b & Eb & B). rewrite Eb. cbn [bind].
  destruct b; cbn [negb].
  2:{ eexists _, false, _. split; [reflexivity|]. split; [discriminate|]. intros _. exists NamePrefix. rewrite !errors_app, Ep, Ef. split; [reflexivity|].
      exists [], (XNode name ats items), (ats :: s). split; [constructor|]. cbn [says xname]. split; [intros Y; apply B in Y; discriminate|]. intros path' y' s'' _ Bf. inversion Bf. }
  destruct (attrs_blamed (t :: up) (ats :: s) l R' Nl Xl) as (b & Eb2 & B2 & B3). rewrite Eb2. cbn [bind].
  assert (Ok0 : name_ok (ats :: s) name) by (apply B; reflexivity).
  destruct b; cbn [negb].
  2:{ eexists _, false, _. split; [reflexivity|]. split; [discriminate|]. intros _. exists AttrPrefix. rewrite !errors_app, Ep, Ef. split; [reflexivity|].
      exists [], (XNode name ats items), (ats :: s). split; [constructor|]. cbn [says xname xattrs]. split; [|intros path' y' s'' _ Bf; inversion Bf].
      split; [exact Ok0|]. destruct (B3 eq_refl) as (c & I & Q). exists c. split; [|exact Q]. eapply Permutation_in; [apply Permutation_map; exact Pa|exact I]. }
  assert (F0 : fine (XNode name ats items) (ats :: s)).
  { split; [exact Ok0|]. intros c I. cbn [xattrs] in I. apply B2; [reflexivity|]. eapply Permutation_in; [apply Permutation_map, Permutation_sym; exact Pa|exact I]. }
  match goal with |- context [bind (?f childs)] => set (go := f) end.
  assert (K : exists childs' ok ev, go childs = Ok (childs', ok, ev) /\ (ok = true -> Forall (allp fine (ats :: s)) (elems items)) /\
    (ok = false -> exists er i c, errors ev = [er] /\ nth_error (elems items) i = Some c /\ first_fault (ats :: s) c er /\
       forall j d, j < i -> nth_error (elems items) j = Some d -> allp fine (ats :: s) d)).
  { clear - IH C Oc R'. revert C Oc. generalize (elems items). induction childs as [|c childs IHc]; intros xs C Oc.
    - inversion C; subst. exists [], true, []. split; [reflexivity|]. split; [constructor|discriminate].
    - inversion C as [|? y ? ys C1 C2]; subst. inversion Oc as [|? ? O1 O2]; subst. cbn [go].
      destruct (IH c y C1 (t :: up) (ats :: s) R' O1) as (c' & ok & ev & E & V & D). rewrite E. cbn [bind]. destruct ok; cbn [negb].
      + destruct (IHc ys C2 O2) as (cs' & ok & ev2 & E' & V' & D'). change (go childs = Ok (cs', ok, ev2)) in E'.
        change (exists childs' ok0 ev0, (' (r, ok, ev') <- go childs;; Ok (c' :: r, ok, ev ++ ev')) = Ok (childs', ok0, ev0) /\ (ok0 = true -> Forall (allp fine (ats :: s)) (y :: ys)) /\
          (ok0 = false -> exists er i c, errors ev0 = [er] /\ nth_error (y :: ys) i = Some c /\ first_fault (ats :: s) c er /\
             forall j d, j < i -> nth_error (y :: ys) j = Some d -> allp fine (ats :: s) d)).
        rewrite E'. cbn [bind]. eexists _, ok, _. split; [reflexivity|]. split.
        * intros Z. constructor; [apply V; reflexivity|apply V'; exact Z].
        * intros Z. destruct (D' Z) as (er & i & d & Q1 & Q2 & Q3 & Q4). exists er, (S i), d.
          apply validate_told in E as Tl. destruct Tl as ([Tl _] & _). rewrite errors_app, Tl by reflexivity. split; [exact Q1|]. split; [exact Q2|]. split; [exact Q3|].
          intros [|j] d' L Hd; [injection Hd as <-; apply V; reflexivity|]. apply (Q4 j); [lia|exact Hd].
      + eexists _, false, _. split; [reflexivity|]. split; [discriminate|]. intros _. destruct (D eq_refl) as (er & Q1 & Q2). exists er, 0, y. split; [exact Q1|]. split; [reflexivity|]. split; [exact Q2|]. intros j d L. lia. }
  destruct K as (childs' & ok & ev & E & V & D). rewrite E. cbn [bind]. eexists _, ok, _. split; [reflexivity|]. split.
  - intros Z. apply allp_unfold. split; [exact F0|apply V, Z].
  - intros Z. destruct (D Z) as (er & i & c & Q1 & Q2 & (path & y & s' & A & Sy & Bf) & Q4). exists er. rewrite !errors_app, Ep, Ef. split; [exact Q1|].
    exists (i :: path), y, s'. split; [econstructor; eassumption|]. split; [exact Sy|]. intros path' y' s'' A' B'.
    inversion B' as [i' q|j i' p q L|i' p q Bp]; subst; inversion A'; subst; try exact F0.
    + match goal with E : nth_error _ j = Some ?d, A2 : at_path _ ?d _ _ _ |- _ => exact (Q4 j d L E _ _ _ A2) end.
    + match goal with E : nth_error _ i = Some ?d, A2 : at_path _ ?d _ _ _ |- _ => rewrite Q2 in E; injection E as <-; exact (Bf _ _ _ A2 Bp) end.
Qed.
Lemma reported n x : regular n -> shows n x -> ordinary x ->
  exists e ok ev, nse_doc_validate (Some (Some (elem_of n))) = Ok (Some (Some e), ok, ev) /\
    (ok = true -> ns_valid x /\ errors ev = []) /\ (ok = false -> exists er, errors ev = [er] /\ first_fault [] x er).
Proof.
  intros R H O. destruct (blamed _ _ (proj1 regular_okelem n x H R) [] [] ltac:(constructor) O) as (e & ok & ev & E & V & D).
  exists e, ok, ev. split; [unfold nse_doc_validate; rewrite E; reflexivity|]. split; [|exact D]. intros Z. split; [exact (V Z)|]. apply validate_told in E. apply E, Z.
Qed.
Lemma once doc doc' ok ev : nse_doc_validate doc = Ok (doc', ok, ev) ->
  (ok = true -> errors ev = []) /\ (ok = false -> exists er, errors ev = [er]) /\ cursors false ev.
Proof.
  destruct doc as [[e|]|]; cbn [nse_doc_validate].
  - destruct (nse_validate [] e) as [[[e' ok'] ev']| |] eqn:E; cbn [bind]; try discriminate. intros H. injection H as <- <- <-. apply validate_told in E. destruct E as ([H1 H2] & H3). auto.
  - intros H. injection H as <- <- <-. repeat split. discriminate.
  - intros H. injection H as <- <- <-. repeat split; [discriminate|]. eexists. reflexivity.
Qed.
Lemma agrees root : ns_doc_validate root = (' (d, ok, _) <- nse_doc_validate (Some root) ;; match d with Some r => Ok (r, ok) | None => UB end).
Proof.
  destruct root as [e|]; cbn [ns_doc_validate nse_doc_validate]; [|reflexivity]. rewrite validate_same. destruct (nse_validate [] e) as [[[e' ok] ev]| |]; reflexivity.
Qed.

(** ** an error that is never reported *)
Lemma install_never l : forall t df t' ok ev, NoDup (map fst l) -> Forall (fun p => nul_free (fst p)) l -> (df = true -> ~ In default_decl (map fst l)) ->
  nse_install l t df = Ok (t', ok, ev) -> ~ In (Error SeveralDefaults) ev.
Proof.
  induction l as [|[a v] l IH]; intros t df t' ok ev D N F; cbn [nse_install].
  - intros H. injection H as <- <- <-. auto.
  - cbn [map fst] in *. inversion D as [|? ? D1 D2]; subst. inversion N as [|? ? N1 N2]; subst. cbn [fst] in N1. rewrite (starts_ok a N1). cbn [bind].
    assert (F' : df = true -> ~ In default_decl (map fst l)) by (intros Hd X; apply (F Hd); right; exact X).
    destruct (starts a) eqn:St; cbn [negb]; [|apply IH; assumption].
    destruct (Nat.eqb_spec (length a) 5) as [L|L].
    + assert (a = default_decl).
      { unfold starts in St. destruct (after (s2b "xmlns") a) as [r|] eqn:Ea; [|discriminate]. apply after_Some in Ea. subst a.
        destruct r; [rewrite app_nil_r; reflexivity|]. cbn in L. discriminate. }
      subst a. destruct df; [exfalso; apply F; [reflexivity|left; reflexivity]|]. apply IH; trivial.
    + destruct (hash_exists _ _ _ _ _ _ _) as [x| |]; cbn [bind]; try discriminate. destruct x.
      * intros H. injection H as <- <- <-. cbn. intros [X|[X|[]]]; discriminate.
      * destruct (hash_insert_full _ _ _ _ _ _ _ _ _ _) as [h| |]; cbn [bind]; try discriminate. apply IH; assumption.
Qed.
Lemma never_defaults : forall e x, okelem e x -> forall up e' ok ev, nse_validate up e = Ok (e', ok, ev) -> ~ In (Error SeveralDefaults) ev.
Proof.
  fix IH 1. intros [name a t0 childs] x H up e' ok ev.
  assert (Hx : exists ats items m, x = XNode name ats items /\ arep a m /\ Forall vgood m /\ Forall2 okelem childs (elems items)).
  { inversion H; subst. exists ats, items, m. auto. }
  destruct Hx as (ats & items & m & -> & Ra & G & C). clear H.
  destruct (attr_pairs_ok a m Ra) as (l & El & Pl). cbn [nse_validate]. rewrite El. cbn [bind].
  assert (Dl : NoDup (map fst l)).
  { eapply Permutation_NoDup; [apply Permutation_map; apply Permutation_sym; exact Pl|]. apply (arep_nodup _ _ Ra). }
  assert (Nl : Forall (fun p => nul_free (fst p)) l).
  { rewrite Forall_forall in *. intros p I. destruct (G p) as [X _]; [eapply Permutation_in; [exact Pl|exact I]|exact X]. }
  assert (E0 : forall t' ok' ev', (if has_attributes a then nse_install l None false else Ok (None, true, [])) = Ok (t', ok', ev') -> ~ In (Error SeveralDefaults) ev').
  { intros t' ok' ev'. destruct (has_attributes a); [apply install_never; trivial; discriminate|]. intros Q. injection Q as <- <- <-. auto. }
  destruct (if has_attributes a then nse_install l None false else Ok (None, true, [])) as [[[t' ok'] ev']| |]; cbn [bind]; try discriminate.
  specialize (E0 _ _ _ eq_refl).
  assert (P : ~ In (Error SeveralDefaults) ((if has_attributes a then [CursorNew] else []) ++ ev')) by (rewrite in_app_iff; destruct (has_attributes a); cbn; intuition discriminate).
  assert (P2 : forall er, er <> SeveralDefaults -> ~ In (Error SeveralDefaults) (((if has_attributes a then [CursorNew] else []) ++ ev') ++ free_cursor (has_attributes a) ++ [Error er])).
  { intros er Ne. intros X. apply in_app_or in X. destruct X as [X|X]; [exact (P X)|]. apply in_app_or in X. destruct X as [X|[X|[]]]; [destruct (has_attributes a); [destruct X as [X|[]]; discriminate|destruct X]|congruence]. }
  destruct ok'; cbn [negb]; [|intros Q; injection Q as <- <- <-; exact P].
  destruct (name_declared _ name) as [[]| |]; cbn [bind negb]; try discriminate; [|intros Q; injection Q as <- <- <-; apply P2; discriminate].
  destruct (attrs_declared _ l) as [[]| |]; cbn [bind negb]; try discriminate; [|intros Q; injection Q as <- <- <-; apply P2; discriminate].
  match goal with |- context [bind (?f childs)] => set (go := f) end.
  assert (K : forall l' ok ev, go childs = Ok (l', ok, ev) -> ~ In (Error SeveralDefaults) ev).
  { clear - IH C. revert C. generalize (elems items). induction childs as [|c childs IHc]; intros xs C l' ok ev.
    - intros Q. injection Q as <- <- <-. auto.
    - inversion C as [|? y ? ys C1 C2]; subst. cbn [go].
      match goal with |- (bind (nse_validate ?u c) _) = _ -> _ => pose proof (IH c y C1 u) as Q; destruct (nse_validate u c) as [[[c' okc] evc]| |] end; cbn [bind]; try discriminate.
      specialize (Q _ _ _ eq_refl). destruct okc; cbn [negb]; [|intros X; injection X as <- <- <-; exact Q].
      match goal with |- (bind ?g _) = _ -> _ => destruct g as [[[r okr] evr]| |] eqn:Eg end; cbn [bind]; try discriminate.
      intros X. injection X as <- <- <-. rewrite in_app_iff. specialize (IHc ys C2 _ _ _ eq_refl). tauto. }
  destruct (go childs) as [[[r okr] evr]| |]; cbn [bind]; try discriminate. intros Q. injection Q as <- <- <-. specialize (K _ _ _ eq_refl).
  intros X. apply in_app_or in X. destruct X as [X|X]; [|exact (K X)]. apply in_app_or in X. destruct X as [X|X]; [exact (P X)|]. destruct (has_attributes a); [destruct X as [X|[]]; discriminate|destruct X].
Qed.
Lemma in_errors er ev : In er (errors ev) -> In (Error er) ev.
Proof. unfold errors. rewrite in_flat_map. intros ([| |er'] & I & X); [destruct X..|]. destruct X as [->|[]]. exact I. Qed.
Lemma never_several n x d ok ev : regular n -> shows n x -> nse_doc_validate (Some (Some (elem_of n))) = Ok (d, ok, ev) -> ~ In SeveralDefaults (errors ev).
Proof.
  intros R H E I. apply in_errors in I. revert I. unfold nse_doc_validate in E. destruct (nse_validate [] (elem_of n)) as [[[e' ok'] ev']| |] eqn:E1; cbn [bind] in E; try discriminate.
  injection E as <- <- <-. eapply never_defaults; [apply (proj1 regular_okelem n x H R)|exact E1].
Qed.
