From Coq Require Import Permutation.
From Verif Require Import Prelude HashModel HashSpec HashExec HashProofs HashProofs2 HashStrProofs OwnModel OwnExec OwnSpec.
Open Scope nat_scope.

(** ** memory *)
Definition cnt (l : list nat) (x : nat) : nat := count_occ Nat.eq_dec l x.
Definition held (m : mem) (x : nat) : nat := cnt (m_live m) x.
Definition mem_ok (m : mem) : Prop := (forall x, held m x <= 1) /\ (forall x, m_next m <= x -> held m x = 0).
Definition w (b : blk) (x : nat) : nat := match b_org b with None => if Nat.eqb (b_id b) x then 1 else 0 | Some _ => 0 end.
Definition W (l : list blk) (x : nat) : nat := cnt (malloced l) x.

Lemma cnt_app l1 l2 x : cnt (l1 ++ l2) x = cnt l1 x + cnt l2 x.
Proof. unfold cnt. induction l1 as [|a l IH]; simpl; [reflexivity|]. destruct (Nat.eq_dec a x); simpl; rewrite IH; reflexivity. Qed.
Lemma W_nil x : W [] x = 0. Proof. reflexivity. Qed.
Lemma W_cons b l x : W (b :: l) x = w b x + W l x.
Proof.
  unfold W, w, malloced. simpl. fold (malloced l). destruct (b_org b); [reflexivity|].
  unfold cnt. simpl. destruct (Nat.eq_dec (b_id b) x) as [->|E].
  - rewrite Nat.eqb_refl. reflexivity.
  - apply Nat.eqb_neq in E. rewrite E. reflexivity.
Qed.
Lemma W_app l1 l2 x : W (l1 ++ l2) x = W l1 x + W l2 x.
Proof. unfold W, malloced. rewrite flat_map_app, cnt_app. reflexivity. Qed.
Lemma w_self b : b_org b = None -> w b (b_id b) = 1.
Proof. intro E. unfold w. rewrite E, Nat.eqb_refl. reflexivity. Qed.
Lemma w_pool b d x : b_org b = Some d -> w b x = 0.
Proof. intro E. unfold w. rewrite E. reflexivity. Qed.
Lemma w_le b x : w b x <= 1.
Proof. unfold w. destruct (b_org b); [lia|]. destruct (b_id b =? x); lia. Qed.
Lemma W_in b l : In b l -> forall x, w b x <= W l x.
Proof. intros H x. induction l as [|a l IH]; [destruct H|]. rewrite W_cons. destruct H as [->|H]; [lia|]. specialize (IH H). lia. Qed.

Definition ablk (a : attr) : list blk := [at_blk a; at_name a; at_value a].
Definition pblk (x : anode) : list blk := [h_key blk blk unit x; h_data blk blk unit x].
Lemma W_ablk a x : W (ablk a) x = w (at_blk a) x + w (at_name a) x + w (at_value a) x.
Proof. unfold ablk. rewrite !W_cons, W_nil. lia. Qed.
Lemma W_pblk a x : W (pblk a) x = w (h_key blk blk unit a) x + w (h_data blk blk unit a) x.
Proof. unfold pblk. rewrite !W_cons, W_nil. lia. Qed.
Ltac cn := cbn [flat_map] in *; repeat (rewrite W_app in * || rewrite W_cons in * || rewrite W_nil in * || rewrite W_ablk in * || rewrite W_pblk in *).

Lemma existsb_in a l : existsb (Nat.eqb a) l = true <-> In a l.
Proof.
  rewrite existsb_exists. split.
  - intros (x & Hx & E). apply Nat.eqb_eq in E. subst; exact Hx.
  - intro H. exists a. split; [exact H|apply Nat.eqb_refl].
Qed.
Lemma held_live m a : 1 <= held m a -> live a m = true.
Proof. intro H. apply existsb_in. apply (count_occ_In Nat.eq_dec). exact H. Qed.
Lemma drop1_cnt a l x : In a l -> cnt l x = cnt (drop1 a l) x + (if Nat.eqb a x then 1 else 0).
Proof.
  unfold cnt. induction l as [|b l IH]; intros H; [destruct H|]. simpl.
  destruct (Nat.eqb_spec b a) as [->|E].
  - destruct (Nat.eq_dec a x) as [->|E2]; [rewrite Nat.eqb_refl; lia|]. apply Nat.eqb_neq in E2. rewrite E2. lia.
  - destruct H as [H|H]; [congruence|]. specialize (IH H). simpl. destruct (Nat.eq_dec b x); lia.
Qed.

Lemma free_ok b m : mem_ok m -> b_org b = None -> (forall x, w b x <= held m x) ->
  exists m', free b m = Ok m' /\ mem_ok m' /\ (forall x, held m x = held m' x + w b x) /\
             m_dead m' = m_dead m.
Proof.
  intros [M1 M2] E H. unfold free. rewrite E.
  assert (L : 1 <= held m (b_id b)) by (rewrite <- (w_self b E); apply H).
  rewrite (held_live _ _ L). eexists; split; [reflexivity|].
  assert (In (b_id b) (m_live m)) by (apply existsb_in, held_live; exact L).
  assert (G : forall x, held m x = held (Mem (drop1 (b_id b) (m_live m)) (m_next m) (m_dead m)) x + w b x).
  { intro x. unfold held, w. rewrite E. simpl. apply drop1_cnt. assumption. }
  repeat split; auto.
  - intro x. specialize (G x). specialize (M1 x). lia.
  - intros x Hx. specialize (G x). specialize (M2 x Hx). lia.
Qed.
Lemma malloc_ok s m : mem_ok m ->
  exists b m', malloc s m = (b, m') /\ mem_ok m' /\ (forall x, held m' x = held m x + w b x) /\
    b_org b = None /\ m_dead m' = m_dead m.
Proof.
  intros [M1 M2]. unfold malloc. eexists _, _. split; [reflexivity|].
  assert (G : forall x, held (Mem (m_next m :: m_live m) (S (m_next m)) (m_dead m)) x
              = held m x + w (Blk (m_next m) None s) x).
  { intro x. unfold held, w, cnt. simpl. destruct (Nat.eq_dec (m_next m) x) as [->|E].
    - rewrite Nat.eqb_refl. lia.
    - apply Nat.eqb_neq in E. rewrite E. lia. }
  repeat split; auto.
  - intro x. rewrite G. unfold w. simpl. destruct (Nat.eqb_spec (m_next m) x) as [<-|E].
    + rewrite (M2 _ (le_n _)). lia.
    + specialize (M1 x). lia.
  - intros x Hx. simpl in Hx. rewrite G. unfold w. simpl. rewrite (M2 x) by lia.
    destruct (Nat.eqb_spec (m_next m) x); lia.
Qed.
Definition alv (D : list nat) (d : nat) : Prop := existsb (Nat.eqb d) D = false.
Lemma pool_ok d s m : mem_ok m -> alv (m_dead m) d ->
  exists b m', pool d s m = Ok (b, m') /\ mem_ok m' /\ (forall x, held m' x = held m x) /\
    b_org b = Some d /\ m_dead m' = m_dead m.
Proof.
  intros [M1 M2] A. unfold pool, alive. unfold alv in A. rewrite A. simpl. eexists _, _. split; [reflexivity|].
  repeat split; auto. intros x Hx. simpl in Hx. apply M2. lia.
Qed.
(** blocks of a pool that is still there *)
Definition pok (D : list nat) (b : blk) : Prop := match b_org b with Some d => alv D d | None => True end.
Lemma rd_ok b m : pok (m_dead m) b -> (forall x, w b x <= held m x) -> rd b m = Ok tt.
Proof.
  intros P H. unfold rd, pok in *. destruct (b_org b) as [d|] eqn:E.
  - unfold alive. unfold alv in P. rewrite P. reflexivity.
  - rewrite (held_live m (b_id b)); [reflexivity|]. rewrite <- (w_self b E). apply H.
Qed.
Definition org (fac : bool) (b : blk) : Prop := fac = is_some (b_org b).
Lemma free_unless_ok fac b m : mem_ok m -> org fac b -> (forall x, w b x <= held m x) ->
  exists m', free_unless fac b m = Ok m' /\ mem_ok m' /\ (forall x, held m x = held m' x + w b x) /\
             m_dead m' = m_dead m.
Proof.
  intros M O H. unfold free_unless, org in *. destruct (b_org b) as [d|] eqn:E; simpl in O; subst fac.
  - exists m. repeat split; auto; try apply M. intro x. rewrite (w_pool b d x E). lia.
  - apply free_ok; assumption.
Qed.
Lemma free_opt_ok o m : mem_ok m -> (forall b, o = Some b -> b_org b = None) -> (forall x, W (opt_blk o) x <= held m x) ->
  exists m', free_opt o m = Ok m' /\ mem_ok m' /\ (forall x, held m x = held m' x + W (opt_blk o) x) /\
             m_dead m' = m_dead m.
Proof.
  intros M O H. destruct o as [b|]; simpl in *.
  - destruct (free_ok b m M (O b eq_refl)) as (m' & E & M' & G & D).
    { intro x. specialize (H x). cn. lia. }
    exists m'. repeat split; auto; try apply M'. intro x. specialize (G x). cn. lia.
  - exists m. repeat split; auto; apply M.
Qed.

(** ** the tree *)
Definition iblocks (i : item) : list blk :=
  match i with
  | INode c => blocks c
  | IText _ h data c _ => [hd_blk h; data; c]
  | IPi h pi s c => hd_blk h :: pi :: s :: opt_blk c
  end.
Lemma blocks_eq n : blocks n =
  n_self n :: opt_blk (n_name n) ++ store_blocks (n_attrs n) ++ hold_blk (n_holder n) ++ flat_map iblocks (n_items n).
Proof.
  destruct n as [b f s sf a k l h]. simpl. do 4 f_equal.
  induction l as [|i l IH]; simpl; [reflexivity|]. destruct i; simpl; rewrite IH; [reflexivity|reflexivity|].
  rewrite <- ?app_assoc. reflexivity.
Qed.
Definition idocs (i : item) : list nat :=
  match i with INode c => docs c | IText _ h _ _ _ => hold_doc h | IPi h _ _ _ => hold_doc h end.
Lemma docs_eq n : docs n =
  (match n_holder n with Some h => hold_doc h | None => [] end) ++ flat_map idocs (n_items n).
Proof.
  destruct n as [b f s sf a k l h]. simpl. f_equal.
  induction l as [|i l IH]; simpl; [reflexivity|]. destruct i; simpl; rewrite IH; reflexivity.
Qed.

Notation hkey := (h_key blk blk unit).
Notation hdata := (h_data blk blk unit).
Notation ahrep := (hrep blk blk unit bhash bkeq).
Definition wf_attr (D : list nat) (a : attr) : Prop :=
  org (at_fac a) (at_blk a) /\ org (at_fac a) (at_name a) /\ org (at_fac a) (at_value a) /\
  pok D (at_blk a) /\ pok D (at_name a) /\ pok D (at_value a).
Definition wf_entry (D : list nat) (e : entry blk blk unit) : Prop :=
  e_kd e = handler (is_some (b_org (e_key e))) /\ e_dd e = handler (is_some (b_org (e_data e))) /\
  pok D (e_key e) /\ pok D (e_data e).
Definition wf_hash (D : list nat) (h : ahash) : Prop :=
  (exists mm, ahrep h mm) /\ htrace blk blk unit h = [] /\
  Forall (wf_entry D) (map (ent blk blk unit) (ah_pairs h)).
Definition wf_store (D : list nat) (s : store) (k : nat) : Prop :=
  match s with
  | AList l => Forall (wf_attr D) l /\ NoDup (map (fun a => b_str (at_name a)) l) /\ k = length l /\ k <= 10
  | AHash b h => b_org b = None /\ wf_hash D h /\ k = length (ah_pairs h) /\ 11 <= k
  end.
Definition wf_hold (D : list nat) (h : hold) : Prop :=
  org (hd_fac h) (hd_blk h) /\ pok D (hd_blk h) /\ forall d, hd_doc h = Some d -> alv D d.
Definition wf_name (D : list nat) (o : option blk) (f : bool) : Prop :=
  (forall b, o = Some b -> org f b /\ pok D b) /\ (o = None -> f = false).
Definition wf_local (D : list nat) (n : node) : Prop :=
  org (n_fac n) (n_self n) /\ pok D (n_self n) /\ wf_name D (n_name n) (n_name_fac n) /\
  wf_store D (n_attrs n) (n_num n) /\ (forall h, n_holder n = Some h -> wf_hold D h).
Fixpoint wf (D : list nat) (n : node) : Prop :=
  match n with
  | Node _ _ _ _ _ _ items _ =>
    wf_local D n /\
    (fix go (l : list item) : Prop :=
       match l with
       | [] => True
       | INode c :: r => (wf D c /\ n_holder c <> None) /\ go r
       | IText _ h data c f :: r =>
         (wf_hold D h /\ org f data /\ org f c /\ pok D data /\ pok D c) /\ go r
       | IPi h pi s c :: r =>
         (wf_hold D h /\ b_org pi = None /\ b_org s = None /\ forall b, c = Some b -> b_org b = None) /\ go r
       end) items
  end.
Definition iwf (D : list nat) (i : item) : Prop :=
  match i with
  | INode c => wf D c /\ n_holder c <> None
  | IText _ h data c f => wf_hold D h /\ org f data /\ org f c /\ pok D data /\ pok D c
  | IPi h pi s c => wf_hold D h /\ b_org pi = None /\ b_org s = None /\ forall b, c = Some b -> b_org b = None
  end.
Lemma wf_eq D n : wf D n <-> wf_local D n /\ Forall (iwf D) (n_items n).
Proof.
  destruct n as [b f s sf a k l h]. simpl. apply and_iff_compat_l.
  induction l as [|i l IH]; simpl; [split; auto|].
  rewrite Forall_cons_iff, <- IH. destruct i; simpl; tauto.
Qed.
Lemma malloc_pok D b : b_org b = None -> pok D b.
Proof. intro E. unfold pok. rewrite E. exact I. Qed.
Lemma malloc_org b : b_org b = None -> org false b.
Proof. intro E. unfold org. rewrite E. reflexivity. Qed.
Lemma pool_org b d : b_org b = Some d -> org true b.
Proof. intro E. unfold org. rewrite E. reflexivity. Qed.
Lemma pool_pok D b d : b_org b = Some d -> alv D d -> pok D b.
Proof. intros E A. unfold pok. rewrite E. exact A. Qed.

(** what a function on a node has to keep *)
Definition keeps (f : node -> mem -> res (node * mem)) (n : node) (m : mem) : Prop :=
  exists n' m', f n m = Ok (n', m') /\ mem_ok m' /\ m_dead m' = m_dead m /\ wf (m_dead m) n' /\
    (n_holder n <> None -> n_holder n' <> None) /\
    (forall x, held m' x + W (blocks n) x = held m x + W (blocks n') x).
