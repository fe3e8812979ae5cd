(** Concrete programs. *)
From Verif Require Import Prelude PyModel PySpec PyProofs PyProofs2.
From Coq Require Import Lia.
Open Scope nat_scope.
Open Scope list_scope.

(** ** what a program has to respect, decided *)
Definition refers_b (l : list nat) (b : body) : bool := match b with BNode (Some a) _ _ => mem_nat a l | _ => false end.
Definition same_doc (bx b : body) : bool := match bx, b with BDoc d true, BDoc e _ => Nat.eqb d e | _, _ => false end.
Definition node_b (o : nat) (w : world) : option nat := match body_of o w with Some (BNode (Some a) true _) => Some a | _ => None end.
Definition apart (a b : nat) (w : world) : bool := match sub_of b w with Some t => negb (mem_nat a (addrs t)) | None => true end.
Definition has_doc (a : nat) (w : world) : bool := match get_doc a w with Ok (Some _) => true | _ => false end.
Definition has_par (a : nat) (w : world) : bool := match where_ a w with Some (t, _) => match par a t with Some _ => true | None => false end | None => false end.
Definition proper_b (w : world) (c : action) : bool :=
  match c with
  | ASetRoot o n =>
    match node_b n w with Some _ => true | None => false end &&
    match body_of o w with Some (BDoc d _) => match root_addr d w with None => true | Some _ => false end | _ => true end
  | ASetChild o c =>
    match node_b c w with
    | Some b => match body_of o w with Some (BNode (Some a) fin _) => (fin || has_doc a w) && apart a b w | _ => true end
    | None => false
    end
  | ASetAfter o c =>
    match node_b c w with
    | Some b => match body_of o w with Some (BNode (Some a) fin _) => has_doc a w && has_par a w && apart a b w | _ => true end
    | None => false
    end
  | ARemove o dealloc =>
    dealloc &&
    match body_of o w with
    | Some (BNode (Some a) _ _) =>
      match sub_of a w with
      | Some t => forallb (fun y => Nat.eqb (fst y) o || negb (refers_b (addrs t) (o_body (snd y)))) (w_objs w)
      | None => true
      end
    | _ => true
    end
  | ADrop o =>
    forallb (fun x => match body_of x w with
                      | Some bx => forallb (fun y => mem_nat (fst y) (collected o w) || (negb (refers_b (owned w bx) (o_body (snd y))) && negb (same_doc bx (o_body (snd y))))) (w_objs w)
                      | None => true
                      end) (collected o w)
  | _ => true
  end.
Fixpoint proper_run (w : world) (l : list action) : bool :=
  match l with [] => true | c :: r => proper_b w c && match act c w with Ok w' => proper_run w' r | _ => true end end.

Lemma body_look o w b : body_of o w = Some b -> exists r, In (o, Obj r b) (w_objs w).
Proof. unfold body_of. destruct (look o (w_objs w)) as [[r b']|] eqn:E; [|discriminate]. cbn [option_map o_body]. intro H. injection H as ->. exists r. apply look_key. exact E. Qed.
Lemma refers_ok l b : refers_b l b = false -> ~ refers_into l b.
Proof. destruct b as [|[a|] f q]; cbn [refers_b refers_into]; auto. intros H X. apply mem_nat_in in X. congruence. Qed.
Lemma apart_ok a b w : apart a b w = true -> forall t, sub_of b w = Some t -> ~ In a (addrs t).
Proof. unfold apart. intros H t E. rewrite E in H. intro X. apply mem_nat_in in X. rewrite X in H. discriminate. Qed.
Lemma node_b_ok o w b : node_b o w = Some b -> made_by o w /\ forall b' f q, body_of o w = Some (BNode (Some b') f q) -> b' = b.
Proof.
  unfold node_b, made_by. destruct (body_of o w) as [[d f|[a|] [|] q]|]; try discriminate. intro H. injection H as ->. split; [eauto|]. intros b' f q' E. injection E as <- _ _. reflexivity.
Qed.
Lemma has_doc_ok a w : has_doc a w = true -> exists d, get_doc a w = Ok (Some d).
Proof. unfold has_doc. destruct (get_doc a w) as [[d|]| |]; try discriminate. eauto. Qed.
Lemma has_par_ok a w : has_par a w = true -> exists t od p, where_ a w = Some (t, od) /\ par a t = Some p.
Proof. unfold has_par. destruct (where_ a w) as [[t od]|]; [|discriminate]. destruct (par a t) as [p|] eqn:E; [|discriminate]. eauto 6. Qed.
Lemma proper_b_ok w c : proper_b w c = true -> proper w c.
Proof.
  destruct c as [| |x|o|o k|o v|o|o|o|o m|o c|o c|o dealloc|o|o]; cbn [proper_b proper]; try (intros; exact Logic.I).
  - intro H. apply andb_prop in H. destruct H as [H1 H2]. destruct (node_b m w) as [a|] eqn:E; [|discriminate]. split; [apply (node_b_ok _ _ _ E)|]. intros d fin Eb. rewrite Eb in H2. destruct (root_addr d w); [discriminate|reflexivity].
  - destruct (node_b c w) as [b|] eqn:E; [|discriminate]. intro H. destruct (node_b_ok _ _ _ E) as [M U]. split; [exact M|]. intros a fin q b' fin' q' E1 E2. rewrite E1 in H. apply U in E2. subst b'. apply andb_prop in H. destruct H as [H1 H2].
    split; [|apply apart_ok; exact H2]. apply orb_prop in H1. destruct H1 as [H1|H1]; [left; exact H1|right; apply has_doc_ok; exact H1].
  - destruct (node_b c w) as [b|] eqn:E; [|discriminate]. intro H. destruct (node_b_ok _ _ _ E) as [M U]. split; [exact M|]. intros a fin q b' fin' q' E1 E2. rewrite E1 in H. apply U in E2. subst b'. apply andb_prop in H. destruct H as [H H2]. apply andb_prop in H. destruct H as [H0 H1].
    split; [apply has_doc_ok; exact H0|]. split; [apply has_par_ok; exact H1|apply apart_ok; exact H2].
  - intro H. apply andb_prop in H. destruct H as [-> H]. split; [reflexivity|]. intros a fin q t E1 E2 y b Ny Ey. rewrite E1, E2 in H. destruct (body_look _ _ _ Ey) as (r & Hy). rewrite forallb_forall in H. specialize (H _ Hy). cbn [fst snd o_body] in H.
    destruct (Nat.eqb_spec y o); [contradiction|]. cbn [orb] in H. apply refers_ok. destruct (refers_b (addrs t) b); [discriminate|reflexivity].
  - intros H x bx y b Hx Ex Hy Ey. rewrite forallb_forall in H. specialize (H _ Hx). rewrite Ex in H. destruct (body_look _ _ _ Ey) as (r & Hy'). rewrite forallb_forall in H. specialize (H _ Hy'). cbn [fst snd o_body] in H.
    destruct (mem_nat y (collected o w)) eqn:M; [exfalso; apply Hy; apply mem_nat_in; exact M|]. cbn [orb] in H. apply andb_prop in H. destruct H as [H1 H2]. split; [apply refers_ok; destruct (refers_b (owned w bx) b); [discriminate|reflexivity]|].
    intros d fin -> ->. cbn [same_doc] in H2. rewrite Nat.eqb_refl in H2. discriminate.
Qed.
Lemma proper_run_ok l : forall w, proper_run w l = true -> proper_all w l.
Proof.
  induction l as [|c l IH]; intros w H; [exact Logic.I|]. cbn [proper_run] in H. apply andb_prop in H. destruct H as [H1 H2]. split; [apply proper_b_ok; exact H1|]. intros w' E. rewrite E in H2. apply IH. exact H2.
Qed.

(** ** programs *)
(** a document is made, gets a root with two childs and a grandchild, one of them is removed, and
    everything is given up *)
Definition writer : list action :=
  [ADoc; ANode; ASetRoot 1 3; ANode; ASetChild 3 5; ANode; ANode; ASetChild 7 9; ASetAfter 5 7; AGo 3 (Child 1); ARemove 5 true;
   ADrop 5; ADrop 7; ADrop 9; ADrop 10; ADrop 3; ADrop 1].
Lemma writer_ok : proper_all world0 writer.
Proof. apply proper_run_ok. vm_compute. reflexivity. Qed.
Lemma writer_run : exists w, run (firstn 11 writer) world0 = Ok w /\ length (w_live w) = 3 /\ length (w_objs w) = 6.
Proof. eexists. vm_compute. split; [reflexivity|split; reflexivity]. Qed.
(** a node keeps its document while the program moves through it *)
Definition reader : list action :=
  [AParse (S_ [S_ []; S_ [S_ []]]); ADocGet 5 3; ADrop 5; AGo 6 Parent; ADrop 6; AGo 7 (Before 0); ADrop 7; ARead 8].
Lemma reader_run : exists w, run reader world0 = Ok w /\ w_held w = [8] /\ length (w_live w) = 4 /\ length (w_docs w) = 1.
Proof. eexists. vm_compute. split; [reflexivity|split; [reflexivity|split; reflexivity]]. Qed.
(** programs that do not respect it *)
Definition kept_child : list action := [ANode; ANode; ASetChild 1 3; ADrop 1].
Definition kept_root : list action := [ADoc; ANode; ASetRoot 1 3; ADrop 1].
Definition kept_cursor : list action := [AParse (S_ []); ARoot 2; ACursor 3; ADrop 2; ADrop 3].
Definition kept_doc : list action := [AParse (S_ []); ARoot 2; ADocOf 3; ADrop 2; ADrop 3].
Definition nested : list action := [ANode; ANode; ANode; ASetChild 1 3; ASetChild 3 5; ADrop 5; ADrop 3].
Definition removed : list action := [AParse (S_ [S_ []]); ARoot 3; AGo 4 (Child 0); ARemove 5 false; ADrop 5; ADrop 4; ADrop 3].
Definition replaced : list action := [ADoc; ANode; ASetRoot 1 3; ANode; ASetRoot 1 5; ADrop 3; ADrop 5; ADrop 1].
