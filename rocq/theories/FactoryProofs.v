From Verif Require Import Prelude Arr FactoryModel FactorySpec FactoryExec.
Open Scope Z_scope.

(** ** item factory *)
(** an item pointer ever handed out: a multiple of the item size inside its block
    and, in the current block, below [count] *)
Definition handed (f : factory) (p : ptr) : Prop :=
  exists k size, snd p = k * f_type f /\ 0 <= k /\ nth_error (blocks f) (fst p) = Some size /\
    k * f_type f + f_type f <= size /\
    (S (fst p) = length (blocks f) -> k < f_count f).

Definition spare_list (f : factory) : list (option ptr) :=
  firstn (Z.to_nat (spare_next f + 1)) (spares f).

Record finv (f : factory) (held : list ptr) : Prop := {
  fi_type : 1 <= f_type f <= 512;
  fi_count : 0 <= f_count f <= f_step f;
  fi_step : f_step f = 256 / f_type f \/ f_step f = 512 / f_type f \/
            f_step f = 1024 / f_type f \/ f_step f = 2048 / f_type f;
  fi_blocks : exists bl, blocks f = bl ++ [f_step f * f_type f];
  fi_held : Forall (handed f) held;
  fi_spare : (spare_max f = 0 /\ spare_next f = 0 /\ spares f = []) \/
             (0 < spare_max f /\ -1 <= spare_next f <= spare_max f /\
              length (spares f) = Z.to_nat (spare_max f + 1));
  fi_sp : exists sl, (spare_max f = 0 /\ sl = [] \/ spare_max f <> 0 /\ spare_list f = map Some sl) /\
          Forall (handed f) sl /\ NoDup (sl ++ held)
}.

Lemma div_pos a b : 1 <= b <= a -> 1 <= a / b.
Proof. intro H. apply Z.div_le_lower_bound; lia. Qed.

Lemma next_step_ok step ts : 1 <= ts <= 512 ->
  (step = 256 / ts \/ step = 512 / ts \/ step = 1024 / ts \/ step = 2048 / ts) ->
  1 <= next_step step ts /\
  (next_step step ts = 256 / ts \/ next_step step ts = 512 / ts \/
   next_step step ts = 1024 / ts \/ next_step step ts = 2048 / ts).
Proof.
  intros H Hs. unfold next_step.
  assert (1 <= 512 / ts) by (apply div_pos; lia).
  assert (1 <= 1024 / ts) by (apply div_pos; lia).
  assert (1 <= 2048 / ts) by (apply div_pos; lia).
  destruct (Z.eqb_spec step (256 / ts)); [split; auto|].
  destruct (Z.eqb_spec step (512 / ts)); [split; auto|].
  destruct (Z.eqb_spec step (1024 / ts)); [split; auto|].
  assert (step = 2048 / ts) by tauto. split; [lia|auto].
Qed.

Lemma finv_create ts : 1 <= ts <= 512 -> exists f, factory_create ts = Ok f /\ finv f [].
Proof.
  intro H. unfold factory_create. destruct (Z.eqb_spec ts 0); [lia|]. eexists; split; [reflexivity|].
  split; simpl; auto.
  - assert (0 <= 256 / ts) by (apply Z.div_pos; lia). lia.
  - exists []. reflexivity.
  - exists []. split; [left; auto|]. split; [constructor|constructor].
Qed.

(** a new item, not among those handed out before *)
Lemma handed_mono f f' p : f_type f' = f_type f ->
  (blocks f' = blocks f /\ f_count f <= f_count f' \/ exists x, blocks f' = blocks f ++ [x]) ->
  handed f p -> handed f' p.
Proof.
  intros Ht Hb (k & size & E1 & E2 & E3 & E4 & E5). exists k, size. rewrite Ht.
  assert (L : (fst p < length (blocks f))%nat) by (apply nth_error_Some; congruence).
  destruct Hb as [[Hb Hc]|[x Hb]]; rewrite Hb.
  - repeat split; auto. intro H. specialize (E5 H). lia.
  - repeat split; auto.
    + rewrite nth_error_app1; assumption.
    + rewrite app_length. simpl. intro H. exfalso. lia.
Qed.

Lemma nodup_app_front {A} (sl held : list A) p :
  NoDup (sl ++ held) -> ~ In p (sl ++ held) -> NoDup (sl ++ p :: held).
Proof. intros. apply NoDup_Add with (a := p) (l := sl ++ held); [apply Add_app|]. auto. Qed.

Lemma get_ok f held : finv f held ->
  exists f' p, factory_get f = Ok (f', p) /\ finv f' (p :: held).
Proof.
  intro I. destruct I as [It Ic Is Ib Ih Isp (sl & Isl & Ihs & Ind)]. unfold factory_get.
  destruct ((0 <? spare_max f) && (0 <=? spare_next f)) eqn:Ecase.
  - apply andb_true_iff in Ecase. destruct Ecase as [E1 E2].
    apply Z.ltb_lt in E1. apply Z.leb_le in E2.
    destruct Isp as [[? _]|(M1 & M2 & M3)]; [lia|].
    destruct Isl as [[? _]|[_ Esl]]; [lia|]. unfold spare_list in Esl.
    set (n := Z.to_nat (spare_next f)).
    assert (En : Z.to_nat (spare_next f + 1) = S n) by (unfold n; lia). rewrite En in Esl.
    assert (Ln : (n < length (spares f))%nat) by (rewrite M3; unfold n; lia).
    destruct (nth_error (spares f) n) as [o|] eqn:Eo; [|apply nth_error_None in Eo; lia].
    destruct (nth_error_split _ _ Eo) as (l1 & l2 & El & Ll).
    assert (Ef : firstn (S n) (spares f) = l1 ++ [o]).
    { rewrite El, <- Ll. rewrite firstn_app. replace (S (length l1) - length l1)%nat with 1%nat by lia.
      rewrite firstn_all2 by lia. reflexivity. }
    rewrite Ef in Esl.
    destruct (rev sl) as [|p rs] eqn:Er.
    { apply (f_equal (@rev ptr)) in Er. rewrite rev_involutive in Er. subst sl. destruct l1; discriminate. }
    assert (Esp : sl = rev rs ++ [p]).
    { rewrite <- (rev_involutive sl), Er. reflexivity. }
    rewrite Esp, map_app in Esl. simpl in Esl. apply app_inj_tail in Esl. destruct Esl as [El1 Eop].
    subst o. unfold aget. fold n. rewrite Eo. simpl.
    eexists _, p. split; [reflexivity|].
    rewrite Esp in Ihs, Ind. apply Forall_app in Ihs. destruct Ihs as [H1 H2]. inversion H2; subst.
    split; simpl; auto; try (constructor; assumption).
    + right. repeat split; auto; lia.
    + exists (rev rs). split; [right; split; [lia|]|split; [exact H1|]].
      * unfold spare_list. simpl. replace (Z.to_nat (spare_next f - 1 + 1)) with n by (unfold n; lia).
        rewrite El, <- Ll. rewrite firstn_app, Nat.sub_diag, firstn_all. simpl. rewrite app_nil_r. reflexivity.
      * rewrite <- app_assoc in Ind. exact Ind.
  - assert (Hsp : forall bl c s t, spare_list (Factory c s t (spare_max f) (spare_next f) (spares f) bl) = spare_list f)
      by reflexivity.
    destruct (Z.ltb_spec (f_step f) (f_count f + 1)) as [L|L].
    + destruct (next_step_ok _ _ It Is) as [N1 N2].
      set (ns := next_step (f_step f) (f_type f)) in *.
      eexists _, _. split; [reflexivity|].
      assert (Mono : forall p, handed f p -> handed
        (Factory 1 ns (f_type f) (spare_max f) (spare_next f) (spares f) (blocks f ++ [ns * f_type f])) p).
      { intros p Hp. apply (handed_mono f); simpl; auto. right; eauto. }
      assert (NP : forall p, handed f p -> p <> (length (blocks f), 0)).
      { intros p (k & size & E1 & E2 & E3 & _) ->. simpl in E3.
        assert (length (blocks f) < length (blocks f))%nat by (apply nth_error_Some; congruence). lia. }
      split; simpl; auto.
      * lia.
      * exists (blocks f). reflexivity.
      * constructor; [|eapply Forall_impl; [exact Mono|exact Ih]].
        exists 0, (ns * f_type f). simpl. split; [lia|]. split; [lia|]. split.
        { rewrite nth_error_app2 by lia. rewrite Nat.sub_diag. reflexivity. }
        split; [nia|]. lia.
      * exists sl. split; [exact Isl|]. split; [eapply Forall_impl; [exact Mono|exact Ihs]|].
        apply nodup_app_front; [exact Ind|]. rewrite in_app_iff. rewrite Forall_forall in Ih, Ihs.
        intros [H|H]; [apply (NP _ (Ihs _ H)); reflexivity|apply (NP _ (Ih _ H)); reflexivity].
    + eexists _, _. split; [reflexivity|]. destruct Ib as [bl Ib].
      assert (Mono : forall p, handed f p -> handed
        (Factory (f_count f + 1) (f_step f) (f_type f) (spare_max f) (spare_next f) (spares f) (blocks f)) p).
      { intros p Hp. apply (handed_mono f); simpl; auto. left; split; [reflexivity|lia]. }
      assert (LB : length (blocks f) = S (length bl)) by (rewrite Ib, app_length; simpl; lia).
      assert (NP : forall p, handed f p -> p <> ((length (blocks f) - 1)%nat, (f_count f + 1 - 1) * f_type f)).
      { intros p (k & size & E1 & E2 & E3 & E4 & E5) ->. simpl in *.
        assert (k < f_count f) by (apply E5; lia).
        assert (k = f_count f + 1 - 1) by (apply (Z.mul_reg_r _ _ (f_type f)); lia). lia. }
      split; simpl; auto.
      * lia.
      * exists bl; exact Ib.
      * constructor; [|eapply Forall_impl; [exact Mono|exact Ih]].
        exists (f_count f), (f_step f * f_type f). simpl. split; [lia|]. split; [lia|]. split.
        { rewrite Ib, nth_error_app2; rewrite app_length; simpl; [|lia].
          replace (length bl + 1 - 1 - length bl)%nat with 0%nat by lia. reflexivity. }
        split; [nia|]. lia.
      * exists sl. split; [exact Isl|]. split; [eapply Forall_impl; [exact Mono|exact Ihs]|].
        apply nodup_app_front; [exact Ind|]. rewrite in_app_iff. rewrite Forall_forall in Ih, Ihs.
        intros [H|H]; [apply (NP _ (Ihs _ H)); reflexivity|apply (NP _ (Ih _ H)); reflexivity].
Qed.

Lemma drop_nth_split {A} (l : list A) n p : nth_error l n = Some p ->
  exists l1 l2, l = l1 ++ p :: l2 /\ drop_nth n l = l1 ++ l2.
Proof.
  revert n; induction l as [|x l IH]; intros [|n] H; simpl in *; try discriminate.
  - inversion H; subst. exists [], l. auto.
  - destruct (IH n H) as (l1 & l2 & -> & E). exists (x :: l1), l2. rewrite E. auto.
Qed.

Lemma release_ok f held n p : finv f held -> nth_error held n = Some p ->
  exists f', factory_release f p = Ok f' /\ finv f' (drop_nth n held).
Proof.
  intros I Hn. destruct (drop_nth_split _ _ _ Hn) as (h1 & h2 & Eh & Ed). rewrite Ed. clear Hn Ed.
  destruct I as [It Ic Is Ib Ih Isp (sl & Isl & Ihs & Ind)]. subst held.
  apply Forall_app in Ih. destruct Ih as [Ih1 Ih2]. inversion Ih2 as [|? ? Hp Ih3]; subst.
  assert (Ihn : Forall (handed f) (h1 ++ h2)) by (apply Forall_app; auto).
  assert (Indn : NoDup ((sl ++ [p]) ++ h1 ++ h2)).
  { rewrite <- app_assoc. simpl. rewrite app_assoc in Ind.
    apply NoDup_Add with (a := p) (l := sl ++ h1 ++ h2).
    - apply Add_app.
    - split; [rewrite app_assoc; apply (NoDup_remove_1 _ _ _ Ind)|].
      rewrite app_assoc. apply (NoDup_remove_2 _ _ _ Ind). }
  assert (Ihs2 : Forall (handed f) (sl ++ [p])) by (apply Forall_app; auto).
  unfold factory_release.
  destruct (Z.eqb_spec (spare_max f) 0) as [E0|E0].
  - destruct Isl as [[_ ->]|[? _]]; [|contradiction]. simpl. eexists; split; [reflexivity|].
    split; simpl; auto.
    + right. repeat split; lia.
    + exists [p]. split; [right; split; [lia|reflexivity]|]. split; assumption.
  - destruct Isp as [[? _]|(M1 & M2 & M3)]; [contradiction|].
    destruct Isl as [[? _]|[_ Esl]]; [contradiction|]. unfold spare_list in Esl.
    (* the written slot is the one after the spares kept so far *)
    assert (W : forall sp nx mx, nx = spare_next f + 1 -> (exists tl, sp = spares f ++ tl) ->
       length sp = Z.to_nat (mx + 1) -> nx <= mx -> 0 < mx ->
       exists f', (sp <- aset sp (Z.to_nat nx) (Some p) ;;
                   Ok (Factory (f_count f) (f_step f) (f_type f) mx nx sp (blocks f))) = Ok f' /\
                  finv f' (h1 ++ h2)).
    { intros sp nx mx -> [tl Esp] Lsp Lnx Lmx.
      destruct (aset_ok sp (Z.to_nat (spare_next f + 1)) (Some p)) as [sp' Ea]; [lia|].
      rewrite Ea. simpl. eexists; split; [reflexivity|]. split; simpl; auto.
      - right. rewrite (aset_length _ _ _ _ Ea). repeat split; lia.
      - exists (sl ++ [p]). split; [right; split; [lia|]|auto].
        unfold spare_list; simpl.
        set (k := Z.to_nat (spare_next f + 1)) in *.
        assert (Lk : (k < length sp)%nat) by lia.
        assert (Ek : firstn k sp = map Some sl).
        { rewrite <- Esl, Esp. rewrite firstn_app. replace (k - length (spares f))%nat with 0%nat by lia.
          simpl. rewrite app_nil_r. reflexivity. }
        replace (Z.to_nat (spare_next f + 1 + 1)) with (S k) by (unfold k; lia).
        rewrite <- (firstn_skipn k sp) in Ea.
        destruct (skipn k sp) as [|x sk] eqn:Esk.
        { apply (f_equal (@length _)) in Esk. rewrite skipn_length in Esk. simpl in Esk. lia. }
        assert (Lf : length (firstn k sp) = k) by (rewrite firstn_length; lia).
        rewrite <- Lf in Ea at 2. rewrite aset_split in Ea. inversion Ea; subst sp'.
        rewrite firstn_app, Lf. replace (S k - k)%nat with 1%nat by lia.
        rewrite firstn_all2 by lia. simpl. rewrite Ek, map_app. reflexivity. }
    destruct (Z.ltb_spec (spare_next f) (spare_max f)) as [L|L].
    + apply W; auto; try lia.
      * destruct (Z.eqb_spec (spare_next f) (-1)); lia.
      * exists []. rewrite app_nil_r. reflexivity.
      * destruct (Z.eqb_spec (spare_next f) (-1)); lia.
    + apply W; auto; try lia.
      * eauto.
      * rewrite app_length, repeat_length. lia.
Qed.

Lemma fexec_ok ops : forall f held, finv f held ->
  exists f' held', fexec f held ops = Ok (f', held') /\ finv f' held' /\ f_type f' = f_type f.
Proof.
  assert (TG : forall f f' p, factory_get f = Ok (f', p) -> f_type f' = f_type f).
  { intros f f' p. unfold factory_get. destruct (_ && _).
    - destruct (aget _ _) as [o| |]; simpl; try discriminate. destruct o; simpl; try discriminate.
      intro H; inversion H; reflexivity.
    - destruct (_ <? _); intro H; inversion H; reflexivity. }
  assert (TR : forall f f' p, factory_release f p = Ok f' -> f_type f' = f_type f).
  { intros f f' p. unfold factory_release. destruct (if _ =? 0 then _ else _) as [[mx nx] sp].
    destruct (aset _ _ _); simpl; try discriminate. intro H; inversion H; reflexivity. }
  induction ops as [|[|n] ops IH]; intros f held I; simpl.
  - eauto.
  - destruct (get_ok f held I) as (f' & p & E & I'). rewrite E. simpl.
    destruct (IH _ _ I') as (f2 & h2 & E2 & I2 & T2). exists f2, h2. rewrite T2. eauto.
  - destruct (nth_error held n) as [p|] eqn:En; [|apply IH; exact I].
    destruct (release_ok f held n p I En) as (f' & E & I'). rewrite E. simpl.
    destruct (IH _ _ I') as (f2 & h2 & E2 & I2 & T2). exists f2, h2. rewrite T2. eauto.
Qed.

Lemma handed_disjoint f ts held : f_type f = ts -> 1 <= ts -> Forall (handed f) held -> NoDup held ->
  ForallOrdPairs disjoint (map (fun p : ptr => (fst p, snd p, ts)) held).
Proof.
  intros Tt H1. induction held as [|p held IH]; simpl; intros Ih Ind2; [constructor|].
  inversion Ih as [|? ? Hp Ih']; subst. inversion Ind2 as [|? ? Hn Hd]; subst.
  constructor; [|apply IH; assumption].
  rewrite Forall_forall. intros r Hr. apply in_map_iff in Hr. destruct Hr as (q & <- & Hq).
  rewrite Forall_forall in Ih'. destruct (Ih' q Hq) as (k & s1 & E1 & E2 & E3 & _).
  destruct Hp as (k' & s2 & E1' & E2' & E3' & _).
  destruct p as [b o], q as [b' o']. simpl in *.
  destruct (Nat.eq_dec b b') as [->|]; [|left; assumption]. right.
  assert (k <> k') by (intros ->; apply Hn; rewrite E1'; rewrite E1 in Hq; exact Hq).
  rewrite E1, E1'. destruct (Z.lt_ge_cases k k'); [right; nia|left; nia].
Qed.

Lemma C13_items_lemma ts ops : 1 <= ts <= 512 ->
  exists f0 f held, factory_create ts = Ok f0 /\ fexec f0 [] ops = Ok (f, held) /\
    safe (blocks f) (map (fun p => (fst p, snd p, ts)) held).
Proof.
  intro H. destruct (finv_create ts H) as (f0 & E0 & I0).
  destruct (fexec_ok ops f0 [] I0) as (f & held & E & I & T).
  assert (Tt : f_type f = ts).
  { rewrite T. unfold factory_create in E0. destruct (Z.eqb ts 0); inversion E0; reflexivity. }
  exists f0, f, held. split; [exact E0|]. split; [exact E|].
  destruct I as [It Ic Is Ib Ih Isp (sl & _ & _ & Ind)]. split.
  - rewrite Forall_forall in Ih |- *. intros r Hr. apply in_map_iff in Hr. destruct Hr as (p & <- & Hp).
    destruct (Ih p Hp) as (k & size & E1 & E2 & E3 & E4 & _). rewrite Tt in *.
    exists size. split; [exact E3|]. rewrite E1. nia.
  - apply (handed_disjoint f); auto; [lia|].
    clear - Ind. induction sl as [|x sl IH]; [exact Ind|]. apply IH. inversion Ind; assumption.
Qed.

(** ** string factory *)
Record sinv (f : sfactory) (held : list region) : Prop := {
  si_step : s_step f = 1024;
  si_size : 1024 <= s_size f;
  si_index : 0 <= s_index f;
  si_blocks : exists bl n, s_blocks f = bl ++ [n] /\ s_size f <= n;
  si_safe : safe (s_blocks f) held;
  si_below : Forall (fun r : region => (S (fst (fst r)) < length (s_blocks f))%nat \/
                 (S (fst (fst r)) = length (s_blocks f) /\ snd (fst r) + snd r <= s_index f)) held
}.

Lemma sinv_create : sinv sfactory_create [].
Proof.
  split; simpl; auto; try lia.
  - exists [], 1024. split; [reflexivity|lia].
  - split; constructor.
Qed.

Lemma inside_app blks x r : inside blks r -> inside (blks ++ [x]) r.
Proof.
  destruct r as [[b o] l]. intros (size & E & H). exists size. split; [|exact H].
  rewrite nth_error_app1; [exact E|]. apply nth_error_Some. congruence.
Qed.

(** cutting [n + 1] bytes at the index of a block large enough *)
Lemma cut f held n : sinv f held -> 0 <= n -> s_index f + n < last (s_blocks f) 0 ->
  sinv (SFactory (s_index f + n + 1) (s_step f) (s_size f) (s_blocks f))
       (((length (s_blocks f) - 1)%nat, s_index f, n + 1) :: held) /\
  write_in (s_blocks f) (length (s_blocks f) - 1) (s_index f + n) = Ok tt.
Proof.
  intros [I1 I2 I3 (bl & m & Eb & Hm) [Is1 Is2] I6] Hn Hlt.
  rewrite Eb, last_last in Hlt.
  assert (Ln : nth_error (s_blocks f) (length (s_blocks f) - 1) = Some m).
  { rewrite Eb, app_length. simpl. rewrite nth_error_app2 by lia.
    replace (length bl + 1 - 1 - length bl)%nat with 0%nat by lia. reflexivity. }
  assert (LB : length (s_blocks f) = S (length bl)) by (rewrite Eb, app_length; simpl; lia).
  split.
  - split; simpl; auto; try lia.
    + eauto.
    + split.
      * constructor; [|exact Is1]. exists m. split; [exact Ln|]. lia.
      * constructor; [|exact Is2]. rewrite Forall_forall in I6 |- *. intros [[b o] l] Hr.
        specialize (I6 _ Hr). simpl in I6 |- *. destruct I6 as [L|[L1 L2]]; [left; lia|]. right; right; lia.
    + constructor.
      * right. simpl. lia.
      * eapply Forall_impl; [|exact I6]. intros [[b o] l] [L|[L1 L2]]; simpl in *; [left; exact L|].
        right; split; [exact L1|lia].
  - unfold write_in, aget. rewrite Ln. simpl.
    destruct (Z.leb_spec 0 (s_index f + n)); [|lia].
    destruct (Z.ltb_spec (s_index f + n) m); [reflexivity|lia].
Qed.

(** opening a fresh block *)
Lemma fresh_block f held size n : sinv f held -> 1024 <= size -> size <= n ->
  sinv (SFactory 0 (s_step f) size (s_blocks f ++ [n])) held.
Proof.
  intros [I1 I2 I3 I4 [Is1 Is2] I6] H1 H2. split; simpl; auto; try lia.
  - eauto.
  - split; [|exact Is2]. eapply Forall_impl; [|exact Is1]. intros r Hr. apply inside_app; exact Hr.
  - eapply Forall_impl; [|exact I6]. intros [[b o] l]. rewrite app_length. simpl. lia.
Qed.

Lemma alloc_ok f held n : sinv f held -> 0 <= n ->
  exists f' p, sfactory_alloc f n = Ok (f', p) /\ sinv f' ((fst p, snd p, n + 1) :: held).
Proof.
  intros I Hn. unfold sfactory_alloc. pose proof (si_size _ _ I) as I2. pose proof (si_step _ _ I) as I1.
  destruct (Z.ltb_spec (s_size f - s_index f - 1) n) as [L|L].
  - destruct (Z.ltb_spec (s_size f) n) as [L2|L2].
    + pose proof (fresh_block f held (n + 1) (n + 1) I) as J.
      destruct (cut _ _ n (J ltac:(lia) ltac:(lia)) Hn) as [J2 W].
      { simpl. rewrite last_last. lia. }
      cbn [s_blocks s_index] in W |- *. rewrite W. eexists _, _. split; [reflexivity|]. exact J2.
    + set (sz := if s_step f <? n then n else s_step f).
      assert (1024 <= sz /\ n <= sz) by (unfold sz; destruct (Z.ltb_spec (s_step f) n); lia).
      pose proof (fresh_block f held sz (sz + 1) I) as J.
      destruct (cut _ _ n (J ltac:(lia) ltac:(lia)) Hn) as [J2 W].
      { simpl. rewrite last_last. lia. }
      cbn [s_blocks s_index] in W |- *. rewrite W. eexists _, _. split; [reflexivity|]. exact J2.
  - destruct (cut f held n I Hn) as [J2 W].
    { destruct (si_blocks _ _ I) as (bl & m & Eb & Hm). rewrite Eb, last_last. lia. }
    rewrite W. eexists _, _. split; [reflexivity|]. exact J2.
Qed.

Lemma sexec_ok sizes : forall f held, sinv f held -> Forall (fun n => 0 <= n) sizes ->
  exists f' held', sexec f held sizes = Ok (f', held') /\ sinv f' held'.
Proof.
  induction sizes as [|n sizes IH]; intros f held I H; simpl; [eauto|].
  inversion H; subst. destruct (alloc_ok f held n I) as (f' & p & E & I'); [assumption|].
  rewrite E. simpl. apply IH; assumption.
Qed.

Lemma C13_strings_lemma sizes : Forall (fun n => 0 <= n) sizes ->
  exists f held, sexec sfactory_create [] sizes = Ok (f, held) /\ safe (s_blocks f) held /\
    map (fun r : region => snd r) held = rev (map (fun n => n + 1) sizes).
Proof.
  intro H. destruct (sexec_ok sizes _ _ sinv_create H) as (f & held & E & I).
  exists f, held. split; [exact E|]. split; [apply I|].
  assert (G : forall sizes f held f' held', sexec f held sizes = Ok (f', held') ->
     map (fun r : region => snd r) held' = rev (map (fun n => n + 1) sizes) ++ map (fun r : region => snd r) held).
  { clear. induction sizes as [|n sizes IH]; simpl; intros f held f' held' E.
    - inversion E; reflexivity.
    - destruct (sfactory_alloc f n) as [[f1 p]| |]; simpl in E; try discriminate.
      rewrite (IH _ _ _ _ E). simpl. rewrite <- app_assoc. reflexivity. }
  rewrite (G _ _ _ _ _ E). simpl. rewrite app_nil_r. reflexivity.
Qed.
