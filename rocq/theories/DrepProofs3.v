(** The loader with its book follows the loader: elements, references, entities (C61). *)
From Coq Require Import Permutation Lia.
From Verif Require Import Prelude StrModel StreamModel TreeModel ParseModel DtdModel DtdDocModel LoadModel.
From Verif Require Import RepModel RepSpec RepProofs RepProofs2 RepProofs3 DrepModel DrepSpec DnearProofs DrepProofs DrepProofs2.
Open Scope Z_scope.

Definition nattrs (d : mdtd) : nat := match m_attrs d with Some (_, l) => length l | None => 0%nat end.
Definition working (w : bool) (x : mdtd * (stream * load)) (m : book) : Prop :=
  (exists p, at_work w p m (fst x) []) /\ nattrs (fst x) = length (l_attrs (snd (snd x))).

(** permutations of the blocks of a DTD *)
Ltac pd := apply (proj2 (Permutation_count_occ Nat.eq_dec _ _)); intro; unfold freed_dtd;
  cbn [with_elements with_attrs with_ents m_elements m_attrs m_ents m_self freed_list];
  repeat (rewrite count_occ_app || rewrite map_app || rewrite concat_app || cbn [count_occ app concat map]);
  repeat destruct (Nat.eq_dec _ _); try lia.
Ltac pe := pd; unfold freed_ent; cbn [opt_block mn_name mn_content mn_self]; repeat (rewrite count_occ_app || cbn [count_occ app]); repeat destruct (Nat.eq_dec _ _); lia.
Lemma ready_elements w p m d m' b l : at_work w p m d [] -> ready m (m_elements d) = (m', (b, l)) ->
  at_work w p (linked_with m' (with_elements d (Some (b, l)))) (with_elements d (Some (b, l))) [].
Proof.
  intros H R. destruct (ready_ok _ _ _ _ _ _ _ _ _ H R) as [(E & ->)|(E & -> & H1)].
  - eapply at_linked; [|exact H]. destruct d as [ds de da dn]; cbn [m_elements] in E; subst; apply Permutation_refl.
  - eapply at_linked; [|exact H1]. destruct d as [ds de da dn]; cbn [m_elements] in E; subst. pd.
Qed.
Lemma ready_attrs w p m d m' b l : at_work w p m d [] -> ready m (m_attrs d) = (m', (b, l)) ->
  at_work w p (linked_with m' (with_attrs d (Some (b, l)))) (with_attrs d (Some (b, l))) [] /\ length l = nattrs d.
Proof.
  intros H R. unfold nattrs. destruct (ready_ok _ _ _ _ _ _ _ _ _ H R) as [(E & ->)|(E & -> & H1)]; rewrite E; split; trivial.
  - eapply at_linked; [|exact H]. destruct d as [ds de da dn]; cbn [m_attrs] in E; subst; apply Permutation_refl.
  - eapply at_linked; [|exact H1]. destruct d as [ds de da dn]; cbn [m_attrs] in E; subst. pd.
Qed.
Lemma ready_ents w p m d m' b l : at_work w p m d [] -> ready m (m_ents d) = (m', (b, l)) ->
  at_work w p (linked_with m' (with_ents d (Some (b, l)))) (with_ents d (Some (b, l))) [].
Proof.
  intros H R. destruct (ready_ok _ _ _ _ _ _ _ _ _ H R) as [(E & ->)|(E & -> & H1)].
  - eapply at_linked; [|exact H]. destruct d as [ds de da dn]; cbn [m_ents] in E; subst; apply Permutation_refl.
  - eapply at_linked; [|exact H1]. destruct d as [ds de da dn]; cbn [m_ents] in E; subst. pd.
Qed.

Definition opt_items (o : option mlist) : list nat := match o with Some l => freed_items l | None => [] end.
Definition with_content (w : bool) (d : mdtd) (e : list nat) (x : option mlist * (stream * (el_type * option part))) (m : book) : Prop :=
  exists p, at_work w p m d (opt_items (fst x) ++ e).
Lemma element_drel w c k d m p st l : at_work w p m d [] -> nattrs d = length (l_attrs l) -> okd c st -> fd st = k ->
  drel w c k snd (working w) fst (parse_element m d st l) (LoadModel.parse_element st l).
Proof.
  intros H Na K F. unfold parse_element, LoadModel.parse_element. destruct (ready m (m_elements d)) as [m0 [eb es]] eqn:R.
  cbv zeta. pose proof (ready_elements _ _ _ _ _ _ _ H R) as H0. clear H R.
  set (d0 := with_elements d (Some (eb, es))) in *. set (m1 := linked_with m0 d0) in *. clearbody m1.
  next1. next2. destruct (negb (0 <? v)); [failing|]. next1.
  eapply drel_until; [exact H0|eassumption|eassumption|goods|]. intros m2 p2 sa o H2 O Ka' Gu Ka Fa.
  destruct o as [[name mt]|]; [|destruct O as (-> & ->); failing].
  destruct ((mt =? 0) || (mt =? 3)); [failing|].
  destruct O as (x & ->). eapply drel_keep; [exact H2|]. intros m3 H3. cbv beta iota.
  destruct (take m3) as [m4 self] eqn:T. pose proof (take_eq _ _ _ _ _ _ _ H3 T) as H4. clear H3 T H2 H0.
  cbv zeta. next1. next2.
  eapply (drel_bindm w c k snd _ fst snd (with_content w d0 [self; x]) fst).
  { destruct (0 <? v0). { accepted st4. apply drel_same; trivial. exists None. exact H4. }
    next2. destruct (0 <? v1). { accepted st5. apply drel_same; trivial. exists None. exact H4. }
    eapply drel_bindm; [eapply (read_drel w c k d0 [self; x]); [discriminate|exact H4|eassumption|eassumption]|].
    intros m5 [ml [sb [ty pt]]] (p5 & H5) Kb Fb. cbn [fst snd] in *. apply drel_same; trivial. exists p5. exact H5. }
  intros m5 [ml [sb [ty pt]]] (p5 & H5) Kb Fb. cbn [fst snd] in *.
  destruct (existsb _ _).
  { eapply drel_fail; [eassumption|eassumption|eassumption|lia|apply is_element; [reflexivity|]]. intros X. apply app_eq_nil in X as (_ & X). discriminate. }
  assert (H6 : at_work w p5 (linked_with m5 (with_elements d0 (Some (eb, es ++ [MEl self x ml])))) (with_elements d0 (Some (eb, es ++ [MEl self x ml]))) []).
  { eapply at_linked; [|exact H5]. unfold d0. change (opt_items ml) with (match ml with Some l => freed_items l | None => [] end).
    pd; unfold freed_element; cbn [me_name me_list me_self]; repeat (rewrite count_occ_app || cbn [count_occ app]); repeat destruct (Nat.eq_dec _ _); lia. }
  set (m6 := linked_with m5 _) in *. clearbody m6. next1. next2.
  destruct (v1 =? 0); [failing|]. apply drel_same; trivial. split; [exists p5; exact H6|]. cbn [fst snd l_attrs]. exact Na.
Qed.

Lemma entity_drel w c k d m p st l : at_work w p m d [] -> nattrs d = length (l_attrs l) -> okd c st -> fd st = k ->
  drel w c k snd (working w) fst (parse_entity m d st l) (LoadModel.parse_entity st l).
Proof.
  intros H Na K F. unfold parse_entity, LoadModel.parse_entity. destruct (ready m (m_ents d)) as [m0 [nb ns]] eqn:R.
  cbv zeta. pose proof (ready_ents _ _ _ _ _ _ _ H R) as H0. clear H R.
  set (d0 := with_ents d (Some (nb, ns))) in *. set (m1 := linked_with m0 d0) in *. clearbody m1.
  next1. next2. destruct (negb (0 <? v)); [failing|]. next1.
  destruct (take m1) as [m2 self] eqn:T. pose proof (take_eq _ _ _ _ _ _ _ H0 T) as H2. clear H0 T.
  set (d2 := with_ents d0 (Some (nb, ns ++ [MEnt self None None]))) in *.
  assert (H3 : at_work w p (linked_with m2 d2) d2 []).
  { eapply at_linked; [|exact H2]. unfold d2, d0. pe. }
  set (m3 := linked_with m2 d2) in *. clearbody m3. clear H2.
  next2. apply drel_bind. intros sa E. cbv beta iota.
  assert (B : okd c sa /\ fd sa = k). { destruct (0 <? v0); [kept; tauto|injection E as <-; tauto]. }
  clear E. destruct B as (Ka & Fa).
  eapply drel_until; [exact H3|eassumption|eassumption|goods|]. intros m4 p4 sb o H4 O Kb' Gu Kb Fb.
  destruct o as [[name mt]|]; [|destruct O as (-> & ->); failing].
  destruct O as (x & ->). eapply drel_keep; [exact H4|]. intros m5 H5. cbv beta iota.
  set (d3 := with_ents d2 (Some (nb, ns ++ [MEnt self (Some x) None]))).
  assert (H6 : at_work w None (linked_with m5 d3) d3 []).
  { eapply at_linked; [|exact H5]. unfold d3, d2, d0. pe. }
  change (with_ents d2 (Some (nb, ns ++ [MEnt self (Some x) None]))) with d3.
  set (m6 := linked_with m5 d3) in *. clearbody m6. clear H5 H4 H3.
  next1. apply drel_bind. intros [st5 v1] E. cbv beta iota.
  assert (Gq : forall q, v1 = Some (Some q) -> Forall StreamProofs.good_chunk [q]).
  { intros q ->. destruct (FdtdProofs.which_in _ _ _ _ E) as (c0 & [X|[X|[X|[X|[]]]]]); try discriminate X; injection X as _ <-; goods. }
  kept. destruct v1 as [q|]; [|failing].
  set (I := fun (y : book * mdtd * stream * option bytes) => let '(m', d', s', ct) := y in
     (exists p, at_work w p m' d' []) /\ nattrs d' = nattrs d /\ okd c s' /\ fd s' = k).
  assert (B : match (match q with
                     | None => Ok (m6, d3, st5, None)
                     | Some q => '(m, st, o) <- take_until m6 st5 true [q] ;;
                         match o with
                         | Some (y, _) =>
                           '(m, c) <- keep_chunk m ;;
                           let d := with_ents d3 (Some (nb, ns ++ [MEnt self (Some x) (Some c)])) in
                           Ok (linked_with m d, d, st, Some (cstr y))
                         | None => m <- nullify m ;; Ok (m, d3, st, None)
                         end
                     end), (match q with
                          | None => Ok (st5, None)
                          | Some q => '(st, o) <- get_until st5 true [q] ;; Ok (st, match o with Some (x, _) => Some (cstr x) | None => None end)
                          end) with
     | Ok (m', d', s', ct), r => r = Ok (s', ct) /\ I (m', d', s', ct)
     | UB, r => r = UB
     | NoFuel, r => r = NoFuel
     end).
  { destruct q as [q|].
    - destruct (get_until st5 true [q]) as [[s' o']| |] eqn:G.
      + destruct (at_until _ _ _ _ _ _ _ _ _ _ H6 G) as (m7 & p7 & T & H7 & Q). rewrite T. cbn [bind]. apply get_until_stays in G; [|exact (Gq _ eq_refl)]. keep G.
        destruct o' as [[y yy]|].
        * destruct Q as (z & ->). destruct (at_keep _ _ _ _ _ H7) as (m8 & E8 & H8). rewrite E8. cbn [bind]. cbv zeta. split; trivial. unfold I.
          split; [exists None|tauto]. eapply at_linked; [|exact H8]. unfold d3, d2, d0. pe.
        * destruct Q as (-> & ->). destruct (at_nullify _ _ _ _ _ H7 eq_refl) as (m8 & E8 & H8). rewrite E8. cbn [bind]. split; trivial. unfold I.
          split; [exists None; exact H8|tauto].
      + pose proof (take_until_bad m6 st5 true [q] (at_touch _ _ _ _ _ H6)) as B. rewrite G in B. rewrite B. reflexivity.
      + pose proof (take_until_bad m6 st5 true [q] (at_touch _ _ _ _ _ H6)) as B. rewrite G in B. rewrite B. reflexivity.
    - split; trivial. unfold I. split; [exists None; exact H6|tauto]. }
  match type of B with match ?e with _ => _ end => destruct e as [[[[m7 d7] s7] ct]| |] end; cbn [bind].
  2: { rewrite B. reflexivity. }
  2: { rewrite B. reflexivity. }
  destruct B as (-> & (p7 & H7) & Na7 & K7 & F7). cbn [bind]. next1. next2.
  destruct (0 <? v1); [|failing]. apply drel_same; trivial. split; [exists p7; exact H7|]. cbn [fst snd l_attrs]. congruence.
Qed.

(** ** References *)
Lemma inspect_percent t st st' v : ok t st -> fd st = false -> stream_inspect st (s2b "%") = Ok (st', v) -> 0 < v -> In "%"%char t.
Proof.
  intros K F H V. destruct (K F) as (K0 & K1 & K2 & K3 & tail & K4). unfold stream_inspect, common_inspect in H. cbv zeta in H.
  change (Z.of_nat (length (s2b "%"))) with 1 in H.
  assert (Km : s_kind st = MEM) by (unfold fd in F; destruct (s_kind st); trivial; discriminate).
  destruct (Z.ltb_spec (s_size st) (1 + s_idx st)) as [C|C]; cbn [bind] in H.
  - unfold prebuffer in H. rewrite Km in H. cbn [bind negb] in H. injection H as <- <-. lia.
  - unfold ptr_at in H. destruct (_ || _); cbn [bind] in H; [discriminate|].
    pose proof (masked_skip (Z.to_nat (s_idx st)) _ _ K4) as M. rewrite skipn_app in M.
    replace (Z.to_nat (s_idx st) - length t)%nat with 0%nat in M by lia.
    destruct (skipn (Z.to_nat (s_idx st)) t) as [|y t'] eqn:Et.
    { exfalso. assert (X : length (skipn (Z.to_nat (s_idx st)) t) = 0%nat) by now rewrite Et. rewrite skipn_length in X. lia. }
    cbn [app] in M. inversion M as [|a b l1 l2 Eq M']; subst.
    destruct (axl_memcmp (cs (s2b "%")) (skipn (Z.to_nat (s_idx st)) (s_buf st)) 1) as [[]| |] eqn:A; cbn [bind] in H; try discriminate.
    2: { injection H as <- <-. lia. }
    match goal with X : _ :: _ = skipn _ _ |- _ => rewrite <- X in A end.
    assert (a = "%"%char). { revert A. clear. destruct a as [[] [] [] [] [] [] [] []]; vm_compute; trivial; discriminate. }
    subst a. destruct Eq as [<-|]; [|discriminate].
    rewrite <- (firstn_skipn (Z.to_nat (s_idx st)) t), Et. apply in_or_app. right. now left.
Qed.
Lemma any_window st : closeby st -> exists t, FwinProofs.window t st.
Proof.
  intros ((Sf & _) & _). destruct (FdtdProofs.sf_kind _ Sf) as (f & Kf). pose proof (FdtdProofs.sf_size _ Sf). pose proof (FdtdProofs.sf_len _ Sf).
  set (t := firstn (Z.to_nat (s_size st)) (s_buf st)). set (r := match f with Some l => l | None => [] end).
  exists (t ++ r), f, [], t, r, (skipn (Z.to_nat (s_size st)) (s_buf st)). split; [exact Kf|]. split; [destruct f; reflexivity|]. split; [reflexivity|].
  split; [unfold t; rewrite firstn_length; lia|]. unfold t. rewrite firstn_skipn. apply masked_refl.
Qed.
(** a reference in a file *)
Lemma inspect_percent_file t st s1 v : FwinProofs.window t st -> closeby st -> stream_inspect st (s2b "%") = Ok (s1, v) -> 0 < v -> In "%"%char t.
Proof.
  intros Wn Nr E V. unfold stream_inspect, common_inspect in E. cbv zeta in E. change (Z.of_nat (length (s2b "%"))) with 1 in E.
  apply RepProofs3.bind_inv in E as ([s2 out] & E1 & E).
  assert (B : out = true \/ FwinProofs.window t s2 /\ 0 <= s_idx s2 < s_size s2).
  { destruct (Z.ltb_spec (s_size st) (1 + s_idx st)) as [C|C].
    - apply RepProofs3.bind_inv in E1 as ([s3 more] & P & E1). injection E1 as <- <-. destruct (pre_near _ _ _ (near_semi _ Nr) P) as (_ & M & _).
      destruct more; [right|now left]. destruct (M eq_refl) as (M1 & M2 & _). split; [exact (FwinProofs.pre_window _ _ _ _ Wn P)|lia].
    - injection E1 as <- _. right. split; [exact Wn|]. pose proof (FdtdProofs.sf_idx _ (proj1 (proj1 Nr))). lia. }
  destruct out; [injection E as _ <-; lia|]. destruct B as [[=]|(W2 & I2)].
  destruct W2 as (f & a & w & r & tail & _ & _ & Et & Z & M). apply RepProofs3.bind_inv in E as (p & Hp & E). apply RepProofs3.bind_inv in E as (q & Hq & E).
  destruct q; [|injection E as _ <-; lia]. clear E. unfold ptr_at in Hp. destruct (_ || _); [discriminate|]. injection Hp as <-.
  subst t. apply in_or_app. right. apply in_or_app. left.
  apply (masked_skip (Z.to_nat (s_idx s2))) in M.
  assert (Lw : (Z.to_nat (s_idx s2) < length w)%nat) by lia. rewrite skipn_app in M. replace (Z.to_nat (s_idx s2) - length w)%nat with 0%nat in M by lia.
  destruct (skipn (Z.to_nat (s_idx s2)) w) as [|y w'] eqn:Ew. { apply (f_equal (@length ascii)) in Ew. rewrite skipn_length in Ew. cbn in Ew. lia. }
  assert (Iy : In y w). { rewrite <- (firstn_skipn (Z.to_nat (s_idx s2)) w), Ew. apply in_or_app. right. now left. }
  cbn [skipn app] in M. inversion M as [|x0 y0 b0 t0 Eq M0 Eb Ey]; subst. rewrite <- Eb in Hq.
  assert (x0 = "%"%char). { revert Hq. clear. destruct x0 as [[] [] [] [] [] [] [] []]; vm_compute; trivial; discriminate. }
  subst x0. destruct Eq as [<-|]; [exact Iy|discriminate].
Qed.
Lemma push_keep c w p m d e st content : at_work w p m d e -> okd c st -> In "%"%char c -> s_prev st = 0 ->
  (fd st = true -> s_idx st <= s_size st) -> content <> [] ->
  match push_text m st content with
  | Ok (m', st') => stream_push st content = Ok st' /\ at_work w p m' d e /\ okd c st' /\ fd st' = fd st
  | UB => stream_push st content = UB
  | NoFuel => stream_push st content = NoFuel
  end.
Proof.
  intros H ((t & K & _) & Nr) Pc Pr Hi Hc. unfold push_text. rewrite (at_touch _ _ _ _ _ H). cbn [bind].
  assert (B : exists m', (if s_size st <? s_size st - s_idx st + Z.of_nat (length content) then
          match own m with
          | self :: buffer :: rest =>
            m <- release m buffer ;; let '(m, b) := take m in Ok (with_own m (self :: b :: rest))
          | _ => UB
          end
        else Ok m) = Ok m' /\ at_work w p m' d e).
  { destruct (_ <? _); [|exists m; tauto]. destruct H as (H & (D & Ow) & N).
    destruct (own m) as [|self [|buffer rest]] eqn:O; cbn [length] in Ow; try lia.
    destruct H as [E L Pl Nn Fo Kk W R On Dn].
    destruct (release_exact m buffer (self :: rest ++ heap_of p ++ document m ++ e)) as (L2 & Rl & E2).
    { eapply exact_perm; [|exact E]. rewrite O. perm. }
    rewrite Rl. cbn [bind]. eexists; split; [reflexivity|]. split; [|split; [split; [exact D|cbn; lia]|exact N]].
    constructor; trivial; [|discriminate].
    eapply exact_perm; [|exact (take_exact _ _ E2)]. cbn. perm. }
  destruct B as (m' & -> & H'). cbn [bind].
  destruct (stream_push st content) as [st'| |] eqn:P; cbn [bind]; trivial. split; trivial. split; trivial.
  assert (Nr' : fd st = true -> closeby st' /\ winm c st').
  { intros X. assert (N : closeby st') by (eapply push_near; [exact (proj1 (Nr X))|exact Pr|exact (Hi X)|exact Hc|exact P]). split; [exact N|].
    destruct (any_window _ N) as (u & Wn). exists u. auto. }
  revert P. unfold stream_push. cbv zeta. destruct (mem_sub _ _ _) as [rest| |] eqn:M; cbn [bind]; try discriminate.
  match goal with |- bind ?e _ = _ -> _ => destruct e as [[b bs]| |] eqn:B end; cbn [bind]; try discriminate. intros [= <-].
  split; [|reflexivity]. split; [|exact Nr']. clear Nr'. destruct (fd st) eqn:Fd. { exists c. split; [|now left]. intros X. change (fd st = false) in X. congruence. }
  exists (content ++ rest). split; [|right; auto]. intros _. destruct (K Fd) as (K0 & K1 & K2 & K3 & tail & K4).
  assert (Lr : Z.of_nat (length rest) = s_size st - s_idx st).
  { revert M. unfold mem_sub. destruct (_ || _) eqn:E; [discriminate|]. intros [= <-]. rewrite !orb_false_iff, !Z.ltb_ge in E. rewrite firstn_length, skipn_length. lia. }
  cbn [s_size s_idx s_prev s_buf stream_accept set_pos]. rewrite app_length. rewrite Pr. repeat (split; [lia|]).
  destruct (_ <? _).
  - injection B as <- _. exists [NUL]. rewrite <- app_assoc. apply masked_refl.
  - destruct (memcpy_to _ _ _) as [b2| |] eqn:Mc; cbn [bind] in B; try discriminate. injection B as <- _.
    unfold memcpy_to in Mc. destruct (_ || _); [discriminate|]. injection Mc as <-. cbn [Z.to_nat firstn app].
    eexists. rewrite <- app_assoc. cbn [Nat.add]. rewrite app_assoc. apply masked_refl.
Qed.
