(** The loader with its book follows the loader: attributes and the whole (C61). *)
From Coq Require Import Permutation Lia.
From Verif Require Import Prelude StrModel StreamModel TreeModel ParseModel DtdModel DtdDocModel LoadModel.
From Verif Require Import RepModel RepSpec RepProofs RepProofs2 RepProofs3 DrepModel DrepSpec DnearProofs DrepProofs DrepProofs2 DrepProofs3.
Open Scope Z_scope.

(** after a reference, a file may have been moved behind what there is of it: the memory of a
    text is as before, and the stream of a file can go on *)
Definition start_of (st : stream) : stream := if fd st then Stream (s_kind st) (s_buf st) (s_bufsize st) (s_size st) 0 0 else st.
Lemma start_fd st : fd (start_of st) = fd st.
Proof. unfold start_of. destruct (fd st) eqn:F; trivial. Qed.
Lemma start_near st : FdtdProofs.wide st -> closeby (Stream (s_kind st) (s_buf st) (s_bufsize st) (s_size st) 0 0).
Proof. intros ([K Ln Nu Sz Ix Pv Ps] & W). split; [split; [constructor; cbn; auto; lia|cbn; lia]|cbn; lia]. Qed.
Definition far (c : bytes) (st : stream) : Prop := fd st = true -> semi st /\ winm c st.
Lemma start_okd c st : okm c st -> far c st -> okd c (start_of st).
Proof.
  intros (t & K & T) N. split.
  - exists t. split; trivial. intros F. rewrite start_fd in F. unfold start_of. rewrite F. exact (K F).
  - rewrite start_fd. intros F. unfold start_of. rewrite F. destruct (N F) as ((N1 & _) & N2). split; [apply start_near; exact N1|exact N2].
Qed.
Lemma start_okm c st : okd c (start_of st) -> okm c st.
Proof.
  intros ((t & K & T) & _). destruct (fd st) eqn:F.
  - exists c. split; [|now left]. intros X. congruence.
  - exists t. split; trivial. unfold start_of in K. rewrite F in K. exact K.
Qed.
Lemma expand_drel w c k d e m p st ents : e = [] -> at_work w p m d e -> okd c st -> fd st = k ->
  drel w c k snd (fun x m => far c (snd x) /\ exists p, at_work w p m d e) start_of (expand m st ents) (LoadModel.expand st ents).
Proof.
  intros Ee H K F. unfold expand, LoadModel.expand. cbv zeta.
  assert (Done : forall m' p' st', at_work w p' m' d e -> okm c st' -> fd st' = k -> far c st' ->
    drel w c k snd (fun x m => far c (snd x) /\ exists p, at_work w p m d e) start_of (Ok (m', Some (tt, st'))) (Ok (Some st'))).
  { intros m' p' st' H' K' F' N'. apply drel_same; cbn [snd]; eauto; [now apply start_okd|now rewrite start_fd]. }
  apply drel_bind. intros [s1 v] E. cbv beta iota. pose proof E as E'. apply inspect_keeps in E'.
  assert (Ek : stays st s1) by (apply inspect_stays in E; [exact E|shorts]). keep Ek.
  destruct (Z.ltb_spec 0 v) as [V|V]; cbn [negb].
  2: { eapply Done; [exact H|apply K0|trivial|]. intros X. destruct (proj2 K0 X). split; [apply near_semi|]; trivial. }
  assert (Pc : In "%"%char c).
  { destruct (fd st) eqn:Fd.
    - destruct (proj2 K Fd) as (Nr & t & Wn & [->|]); trivial. eapply inspect_percent_file; eauto.
    - destruct K as ((t & Kt & [->|]) & _); trivial. eapply inspect_percent; eauto. }
  eapply drel_until; [exact H|eassumption|eassumption|goods|]. intros m1 p1 s2 o H1 O Ku Gu K2 F2.
  destruct o as [[name mt]|]; [|destruct O as (-> & ->); subst e; failing].
  destruct (entity_value ents (cstr name) EParameter) as [value|].
  - destruct (take m1) as [m2 b] eqn:T. pose proof (take_eq _ _ _ _ _ _ _ H1 T) as H2. accepted s2.
    pose proof (push_keep c w p1 m2 d (b :: e) (stream_accept s2) (value ++ s2b " ") H2 K1) as B.
    assert (Hi : fd (stream_accept s2) = true -> s_idx (stream_accept s2) <= s_size (stream_accept s2)).
    { intros X. assert (X1 : fd s1 = true) by congruence.
      pose proof (FdtdProofs.get_safe s1 true [s2b ";"] (proj1 (proj1 (proj2 K0 X1))) ltac:(goods)) as Q. rewrite Gu in Q. cbn [FdtdProofs.nub fst snd] in Q.
      destruct Q as (_ & Q). destruct (Q ltac:(discriminate)) as (Q1 & Q2). cbn. lia. }
    assert (Nv : value ++ s2b " " <> []) by (destruct value; discriminate).
    specialize (B Pc eq_refl Hi Nv).
    destruct (push_text m2 (stream_accept s2) (value ++ s2b " ")) as [[m3 s3]| |]; cbn [bind].
    + destruct B as (-> & H3 & K3 & F3'). cbn [bind]. eapply drel_release; [exact H3|]. intros m4 H4. eapply Done; [exact H4|apply K3|congruence|].
      intros X. destruct (proj2 K3 X). split; [apply near_semi|]; trivial.
    + rewrite B. reflexivity.
    + rewrite B. reflexivity.
  - assert (Km : keeps st (stream_move s2 (s_idx st))).
    { eapply keeps_trans; [eapply keeps_trans; [exact E'|exact Ku]|].
      apply move_keeps. intros sz Ks Fs.
      destruct K as ((t & Kt & _) & _). assert (Kt2 : ok t s2) by (apply Ku, E'; exact Kt).
      assert (Fst : fd st = false) by (rewrite <- (proj1 E'), <- (proj1 Ku); exact Fs).
      destruct (Kt Fst) as (A1 & A2 & A3 & A4 & _). destruct (Kt2 Fs) as (B1 & _). lia. }
    eapply Done; [exact H1|eapply okm_keeps; [exact Km|apply K]|rewrite (proj1 Km); exact F|].
    intros X. split; [eapply back_semi; [apply K; rewrite <- (proj1 Km); exact X|exact E|exact V|exact Gu]|].
    exact (proj2 (proj2 K2 X)).
Qed.

(** ** Declarations of attributes *)
Definition at_place (d : mdtd) (j : nat) : Prop := (j < nattrs d)%nat.
(** the last declaration of the [j]-th element *)
Definition at_last (d : mdtd) (j : nat) (x : mdecl) : Prop :=
  exists b l1 a l2 ds, m_attrs d = Some (b, l1 ++ a :: l2) /\ length l1 = j /\ ma_decls a = ds ++ [x].
Lemma upd_mid {X} (f : X -> X) a l2 : forall l1, upd (length l1) f (l1 ++ a :: l2) = l1 ++ f a :: l2.
Proof. induction l1 as [|x l1 IH]; cbn; trivial. now rewrite IH. Qed.
Lemma upd_length {X} (f : X -> X) : forall l n, length (upd n f l) = length l.
Proof. induction l as [|x l IH]; intros [|n]; cbn; auto. Qed.
Lemma nattrs_on j f d : nattrs (on_decls j f d) = nattrs d.
Proof. unfold nattrs, on_decls. cbn [with_attrs m_attrs]. destruct (m_attrs d) as [[b l]|]; trivial. apply upd_length. Qed.
Lemma last_place d j x : at_last d j x -> at_place d j.
Proof. intros (b & l1 & a & l2 & ds & E & L & _). unfold at_place, nattrs. rewrite E, app_length. cbn. lia. Qed.
Lemma on_last_mid (f : mdecl -> mdecl) ds x : on_last f (ds ++ [x]) = ds ++ [f x].
Proof. unfold on_last. rewrite app_length. cbn [length]. replace (pred (length ds + 1)) with (length ds) by lia. apply upd_mid. Qed.

Lemma add_decl d j x : at_place d j -> let d' := on_decls j (fun l => l ++ [x]) d in
  at_last d' j x /\ Permutation (freed_dtd d ++ freed_decl x) (freed_dtd d').
Proof.
  unfold at_place, nattrs. intros H. cbv zeta. destruct (m_attrs d) as [[b l]|] eqn:E; [|lia].
  destruct (nth_error l j) as [a|] eqn:N; [|apply nth_error_None in N; lia].
  apply nth_error_split in N as (l1 & l2 & -> & <-).
  unfold on_decls. rewrite E, upd_mid. split.
  - eexists b, l1, _, l2, (ma_decls a). cbn [with_attrs m_attrs ma_decls]. repeat (split; [reflexivity|]). reflexivity.
  - destruct d as [ds de da dn]. cbn [m_attrs] in E. subst da. destruct a as [s n lb dc].
    pd; unfold freed_attr; cbn [ma_name ma_list ma_decls ma_self freed_list];
      repeat (rewrite count_occ_app || rewrite map_app || rewrite concat_app || cbn [count_occ app concat map]); repeat destruct (Nat.eq_dec _ _); lia.
Qed.
Lemma change_decl d j x f : at_last d j x -> let d' := on_decls j (on_last f) d in
  at_last d' j (f x) /\ Permutation (freed_dtd d ++ freed_decl (f x)) (freed_dtd d' ++ freed_decl x).
Proof.
  intros (b & l1 & a & l2 & dl & E & <- & Ea). cbv zeta. unfold on_decls. rewrite E, upd_mid, Ea, on_last_mid. split.
  - eexists b, l1, _, l2, dl. cbn [with_attrs m_attrs ma_decls]. repeat (split; [reflexivity|]). reflexivity.
  - destruct d as [ds de da dn]. cbn [m_attrs] in E. subst da. destruct a as [s n lb dc]. cbn [ma_decls] in Ea. subst dc.
    pd; unfold freed_attr; cbn [ma_name ma_list ma_decls ma_self freed_list];
      repeat (rewrite count_occ_app || rewrite map_app || rewrite concat_app || cbn [count_occ app concat map]); repeat destruct (Nat.eq_dec _ _); lia.
Qed.

Lemma enum_of l : freed_list (fun b => [b]) (Some l) = snd l ++ [fst l].
Proof. destruct l as [b l]. cbn [freed_list fst snd]. f_equal. induction l; cbn; congruence. Qed.
Lemma values_ok w p m d vs : at_work w p m d [] -> exists m' e, take_values m vs = Ok (m', e) /\ at_work w p m' d (freed_list (fun b => [b]) (Some e)).
Proof.
  intros H. unfold take_values. destruct (at_takes w p d (S (length vs)) m [] H) as (H1 & _). destruct (takes m (S (length vs))) as [m1 pc]. cbn [fst snd] in H1.
  destruct (take m1) as [m2 b] eqn:T. pose proof (take_eq _ _ _ _ _ _ _ H1 T) as H2.
  destruct (at_takes w p d (length vs) m2 _ H2) as (H3 & _). destruct (takes m2 (length vs)) as [m3 l]. cbn [fst snd] in H3.
  destruct (at_releases w p d pc m3 (l ++ [b])) as (m4 & R & H4). { eapply at_perm; [|exact H3]. pm. }
  rewrite R. cbn [bind]. eexists _, _. split; [reflexivity|]. rewrite enum_of. exact H4.
Qed.

(** what stays the same while one attribute is read *)
Definition reading (w : bool) (n j : nat) (ok_last : mdecl -> Prop) (d : mdtd) (m : book) : Prop :=
  (exists p, at_work w p m d []) /\ nattrs d = n /\ exists x, at_last d j x /\ ok_last x.
Lemma type_drel w c k d n j m st : reading w n j (fun x => md_default x = None /\ md_enum x = None) d m -> okm c st -> far c st -> fd st = k ->
  drel w c k snd (fun x m => reading w n j (fun x => md_default x = None) (fst x) m) fst (att_type m d j st) (LoadModel.att_type st).
Proof.
  intros ((p & H) & Na & x & La & Dx & Ex) K Sm F. unfold att_type, LoadModel.att_type.
  apply drel_bind. intros [st0 v] E. cbv beta iota. pose proof (which_keeps _ _ _ _ _ E) as Kw.
  assert (K0 : okd c st0).
  { split; [eapply okm_keeps; eauto|]. rewrite (proj1 Kw). intros X. destruct (Sm X) as (Sm1 & t & Wn & Ht).
    split; [refine (which_semi _ _ _ _ _ _ Sm1 _ E); [discriminate|shorts]|]. exists t. split; [eapply which_window; eauto|exact Ht]. }
  assert (F0 : fd st0 = k) by (rewrite (proj1 Kw); exact F). clear E Kw.
  assert (R0 : reading w n j (fun x => md_default x = None) d m) by (split; [eauto|split; [trivial|eauto]]).
  destruct v as [ty|]; [|failing].
  destruct ty; try (apply drel_same; trivial).
  eapply drel_until; [exact H|eassumption|eassumption|goods|]. intros m1 p1 sa o H1 O Ku Gu Ka Fa.
  destruct o as [[y mt]|]; [|destruct O as (-> & ->); failing].
  apply drel_bind. intros vs _. destruct (values_ok w p1 m1 d vs H1) as (m2 & e & -> & H2). cbn [bind].
  destruct (change_decl d j x (set_enum e) La) as (La' & P). apply drel_same; trivial. cbn [fst]. split.
  - exists p1. eapply at_linked; [|exact H2]. rewrite app_nil_r.
    apply (Permutation_app_inv_r (freed_decl x)). eapply Permutation_trans; [|exact P]. rewrite <- app_assoc. apply Permutation_app_head.
    destruct x as [s nm df en]. cbn [md_default md_enum] in Dx, Ex. subst. unfold freed_decl, set_enum. cbn [md_name md_default md_enum md_self opt_block app freed_list].
    destruct e as [eb el]. pm.
  - split; [rewrite nattrs_on; trivial|]. exists (set_enum e x). split; trivial.
Qed.
Lemma default_drel w c k d m p st : at_work w p m d [] -> okd c st -> fd st = k ->
  drel w c k snd (fun _ m => exists p, at_work w p m d []) fst (att_default m st) (LoadModel.att_default st).
Proof.
  intros H K F. unfold att_default, LoadModel.att_default. next2. destruct v as [df|]; [apply drel_same; eauto|].
  next2. apply drel_bind. intros sa E. cbv beta iota.
  assert (B : okd c sa /\ fd sa = k) by (destruct (0 <? v); [kept; tauto|injection E as <-; tauto]). clear E. destruct B as (Ka & Fa).
  next2. apply drel_bind. intros [sb v2] E. cbv beta iota.
  assert (B : okd c sb /\ fd sb = k) by (destruct (0 <? v0); [injection E as <- _; tauto|kept; tauto]). clear E. destruct B as (Kb & Fb).
  destruct (0 <? v2); [apply drel_same; eauto|]. eapply drel_msg; [eassumption|eassumption|eassumption|lia|apply not_element; vm_compute; reflexivity].
Qed.

Definition after_atts (w : bool) (n : nat) (x : mdtd * (stream * (list at_decl * bool * bool))) (m : book) : Prop :=
  (exists p, at_work w p m (fst x) []) /\ nattrs (fst x) = n.
Lemma att_drel w c k ents n j : (j < n)%nat -> forall f m p d st decls id idref, at_work w p m d [] -> nattrs d = n -> okd c st -> fd st = k ->
  drel w c k snd (after_atts w n) fst (att_loop f ents m d j st decls id idref) (LoadModel.att_loop f ents st decls id idref).
Proof.
  intros Jn. induction f as [|f IH]; intros m p d st decls id idref H Na K F; [reflexivity|]. cbn [att_loop LoadModel.att_loop].
  next1. next2. destruct (0 <? v); [apply drel_same; trivial; split; eauto|].
  eapply drel_until; [exact H|eassumption|eassumption|goods|]. intros m1 p1 sa o H1 O Ku Gu Ka Fa.
  destruct o as [[name mt]|]; [|destruct O as (-> & ->); failing].
  destruct O as (nb & ->). eapply drel_keep; [exact H1|]. intros m2 H2. cbv beta iota.
  destruct (take m2) as [m3 self] eqn:T. pose proof (take_eq _ _ _ _ _ _ _ H2 T) as H3. clear H1 H2 T.
  cbv zeta. destruct (add_decl d j (MDecl self nb None None)) as (La & P). { unfold at_place. lia. }
  set (d1 := on_decls j _ d) in *.
  assert (H4 : at_work w None (linked_with m3 d1) d1 []).
  { eapply at_linked; [|exact H3]. rewrite app_nil_r. eapply Permutation_trans; [|exact P]. apply Permutation_app_head. apply perm_swap. }
  assert (Na1 : nattrs d1 = n) by (unfold d1; now rewrite nattrs_on).
  set (m4 := linked_with m3 d1) in *. clearbody m4 d1. clear H3 P. next1.
  eapply (drel_bindm w c k snd _ fst snd (fun x m => far c (snd x) /\ exists p, at_work w p m d1 []) start_of); [eapply expand_drel; eauto|].
  intros m5 [[] sb] (Sb & p5 & H5) Kb Fb. cbn [snd] in *. apply start_okm in Kb. rewrite start_fd in Fb. cbv beta iota.
  eapply (drel_bindm w c k snd _ fst snd (fun x m => reading w n j (fun x => md_default x = None) (fst x) m) fst).
  { apply type_drel; trivial. split; [eauto|]. split; trivial. eexists; split; [exact La|split; reflexivity]. }
  intros m6 [d6 [sc ty]] ((p6 & H6) & Na6 & x & La6 & Dx) Kc Fc. cbn [fst snd] in *. cbv beta iota. next1.
  eapply (drel_bindm w c k snd _ fst snd (fun _ m => exists p, at_work w p m d6 []) fst); [eapply default_drel; eauto|].
  intros m7 [[] [sd df]] (p7 & H7) Kd Fd. cbn [fst snd] in *. cbv beta iota.
  match goal with |- drel _ _ _ _ _ _ (if ?a then _ else if ?b then _ else _) (if ?cc then _ else _) =>
    assert (Ec : cc = orb a b) by (destruct ty; reflexivity); rewrite Ec; destruct a; cbn [orb];
    [eapply drel_msg; [eassumption|eassumption|eassumption|lia|apply not_element; vm_compute; reflexivity]|destruct b;
    [eapply drel_msg; [eassumption|eassumption|eassumption|lia|apply not_element; vm_compute; reflexivity]|]] end.
  clear Ec. next1.
  assert (B : match att_value m7 st4 with
     | Ok (m8, se, value) => LoadModel.att_value st4 = Ok (se, value) /\ okd c se /\ fd se = k /\
         exists p8, at_work w p8 m8 d6 [] /\ match value with Some _ => exists y, p8 = Some (Heap y) | None => True end
     | UB => LoadModel.att_value st4 = UB
     | NoFuel => LoadModel.att_value st4 = NoFuel
     end).
  { unfold att_value, LoadModel.att_value. match goal with |- context [which st4 ?l ?dd] => destruct (which st4 l dd) as [[s9 o9]| |] eqn:E9 end; cbn [bind]; trivial.
    assert (Gq : forall q, o9 = Some q -> Forall StreamProofs.good_chunk [q]).
    { intros q ->. destruct (FdtdProofs.which_in _ _ _ _ E9) as (c0 & [X|[X|[]]]); injection X as _ <-; goods. }
    kept.
    destruct o9 as [q|]; [|split; [trivial|split; [trivial|split; [trivial|eauto]]]].
    destruct (get_until s9 true [q]) as [[s' o']| |] eqn:G.
    - destruct (at_until _ _ _ _ _ _ _ _ _ _ H7 G) as (m8 & p8 & E8 & H8 & Q). rewrite E8. cbn [bind]. apply get_until_stays in G; [|exact (Gq _ eq_refl)]. keep G.
      split; trivial. split; trivial. split; trivial. exists p8. split; trivial. destruct o' as [[]|]; trivial.
    - pose proof (take_until_bad m7 s9 true [q] (at_touch _ _ _ _ _ H7)) as B. rewrite G in B. rewrite B. reflexivity.
    - pose proof (take_until_bad m7 s9 true [q] (at_touch _ _ _ _ _ H7)) as B. rewrite G in B. rewrite B. reflexivity. }
  destruct (att_value m7 st4) as [[[m8 se] value]| |]; cbn [bind].
  2: { rewrite B. reflexivity. }
  2: { rewrite B. reflexivity. }
  destruct B as (-> & Ke & Fe & p8 & H8 & Q). cbn [bind].
  match goal with |- drel _ _ _ _ _ _ (if ?a then _ else _) _ => destruct a end; [failing|].
  destruct value as [v8|].
  - destruct Q as (y & ->). destruct (at_keep _ _ _ _ _ H8) as (m9 & E9 & H9). rewrite E9. cbn [bind].
    destruct (change_decl d6 j x (set_default y) La6) as (La' & P). eapply IH; eauto; [|now rewrite nattrs_on].
    eapply at_linked; [|exact H9]. rewrite app_nil_r.
    apply (Permutation_app_inv_r (freed_decl x)). eapply Permutation_trans; [|exact P]. rewrite <- app_assoc. apply Permutation_app_head.
    destruct x as [s nm dff en]. cbn [md_default] in Dx. subst dff. unfold freed_decl, set_default. cbn [md_name md_default md_enum md_self opt_block app].
    pm.
  - cbn [bind]. eapply IH; eauto.
Qed.

Lemma place_bound l name j : place_of l name = Some j -> (j < length l)%nat.
Proof.
  revert j. induction l as [|[x ds] l IH]; intros j; cbn; [discriminate|]. destruct (bytes_eqb x name); [intros [= <-]; lia|].
  destruct (place_of l name) as [i|]; [|discriminate]. intros [= <-]. specialize (IH i eq_refl). lia.
Qed.
Lemma put_length l name ds : length (put_attr l name ds) = match place_of l name with Some _ => length l | None => S (length l) end.
Proof.
  induction l as [|[x d] l IH]; cbn; trivial. destruct (bytes_eqb x name); cbn; trivial. rewrite IH. destruct (place_of l name); trivial.
Qed.
Lemma attlist_drel w c k d m p st l f : at_work w p m d [] -> nattrs d = length (l_attrs l) -> okd c st -> fd st = k ->
  drel w c k snd (working w) fst (parse_attlist f m d st l) (LoadModel.parse_attlist f st l).
Proof.
  intros H Na K F. unfold parse_attlist, LoadModel.parse_attlist. destruct (ready m (m_attrs d)) as [m0 [ab az]] eqn:R.
  cbv zeta. destruct (ready_attrs _ _ _ _ _ _ _ H R) as (H0 & Lz). clear H R.
  set (d0 := with_attrs d (Some (ab, az))) in *. set (m1 := linked_with m0 d0) in *. clearbody m1.
  next1. eapply drel_until; [exact H0|eassumption|eassumption|goods|]. intros m2 p2 sa o H2 O Ku Gu Ka Fa.
  destruct o as [[name mt]|]; [|destruct O as (-> & ->); failing]. destruct O as (x & ->).
  assert (B : exists m3 d3 j, match place_of (l_attrs l) (cstr name) with
                  | Some k => Ok (m2, d0, k)
                  | None =>
                    let '(m, self) := take m2 in
                    '(m, nb) <- keep_chunk m ;;
                    let '(m, lb) := take m in
                    let d := with_attrs d0 (Some (ab, az ++ [MAttr self nb lb []])) in
                    Ok (linked_with m d, d, length az)
                  end = Ok (m3, d3, j) /\ (exists p, at_work w p m3 d3 []) /\ (j < nattrs d3)%nat /\
                  nattrs d3 = match place_of (l_attrs l) (cstr name) with Some _ => length (l_attrs l) | None => S (length (l_attrs l)) end).
  { destruct (place_of (l_attrs l) (cstr name)) as [j|] eqn:Pl.
    - apply place_bound in Pl. exists m2, d0, j. split; trivial. split; [eauto|]. unfold d0, nattrs at 1 2; cbn [with_attrs m_attrs]. lia.
    - destruct (take m2) as [m3 self] eqn:T. pose proof (take_eq _ _ _ _ _ _ _ H2 T) as H3.
      destruct (at_keep _ _ _ _ _ H3) as (m4 & E4 & H4). rewrite E4. cbn [bind]. destruct (take m4) as [m5 lb] eqn:T5. pose proof (take_eq _ _ _ _ _ _ _ H4 T5) as H5.
      eexists _, _, _. split; [reflexivity|]. split.
      + exists None. eapply at_linked; [|exact H5]. unfold d0. pd; unfold freed_attr; cbn [ma_name ma_list ma_decls ma_self freed_list map concat app];
        repeat (rewrite count_occ_app || cbn [count_occ app concat map]); repeat destruct (Nat.eq_dec _ _); lia.
      + unfold nattrs at 1 2; cbn [with_attrs m_attrs]. rewrite app_length. cbn [length]. lia. }
  destruct B as (m3 & d3 & j & E3 & (p3 & H3) & J3 & N3). cbv zeta in E3. rewrite E3. cbn [bind].
  eapply (drel_bindm w c k snd _ fst snd (after_atts w (nattrs d3)) fst); [eapply att_drel; eauto|].
  intros m4 [d4 [sb [[ds id] idref]]] (S4 & N4) Kb Fb. cbn [fst snd] in *. apply drel_same; trivial. split; trivial.
  cbn [fst snd l_attrs]. rewrite put_length. congruence.
Qed.

(** ** The whole *)
Lemma loop_drel w c k : forall f m p d st l it, at_work w p m d [] -> nattrs d = length (l_attrs l) -> okd c st -> fd st = k ->
  drel w c k snd (working w) fst (dtd_loop f m d st l it) (LoadModel.dtd_loop f st l it).
Proof.
  induction f as [|f IH]; intros m p d st l it H Na K F; [reflexivity|]. cbn [dtd_loop LoadModel.dtd_loop].
  next2. destruct (negb v); [apply drel_same; trivial; split; eauto|].
  eapply (drel_bindm w c k snd _ fst same (fun _ m => exists p, at_work w p m d []) fst); [eapply consume_drel; eauto|].
  intros m1 [sa q] (p1 & H1) Ka Fa. unfold same in *. cbn [fst] in *. cbv beta iota. next2. destruct (0 <? v0).
  { eapply (drel_bindm w c k snd _ fst snd (working w) fst); [eapply element_drel; eauto|].
    intros m2 [d2 [sb l2]] ((p2 & H2) & N2) Kb Fb. cbn [fst snd] in *. cbv beta iota. eapply IH; eauto. }
  next2. destruct (0 <? v1).
  { eapply (drel_bindm w c k snd _ fst snd (working w) fst); [eapply attlist_drel; eauto|].
    intros m2 [d2 [sb l2]] ((p2 & H2) & N2) Kb Fb. cbn [fst snd] in *. cbv beta iota. eapply IH; eauto. }
  next2. destruct (0 <? v2).
  { eapply (drel_bindm w c k snd _ fst snd (working w) fst); [eapply entity_drel; eauto|].
    intros m2 [d2 [sb l2]] ((p2 & H2) & N2) Kb Fb. cbn [fst snd] in *. cbv beta iota. eapply IH; eauto. }
  destruct (it =? 3); [failing|]. eapply IH; eauto.
Qed.
