(** The parser with Babel as a function of the text. *)
From Coq Require Import NArith.
From Verif Require Import Prelude Arr StrModel StrSpec StrProofs EscProofs StrProofs2 StrProofs3 AttrModel TreeModel
  StreamModel StreamProofs ParseModel ParseProofs ParseProofs2 XmlSpec BabelModel BabelTables BabelSpec BabelExec BabelProofs BabelProofs2 BabelProofs3
  BdocModel BdocSpec BdocProofs.
Open Scope Z_scope.
Open Scope list_scope.

(** ** setting up *)
(** the conversion of as much of [s] as fits in [room] bytes *)
Fixpoint fit (t : table) (s : bytes) (room : nat) : bytes :=
  match s with
  | [] => []
  | c :: s => if (room <? length (written t c))%nat then [] else written t c ++ fit t s (room - length (written t c))
  end.
Lemma fit_is t : full t -> forall s room n, (n <= length s)%nat -> (length (transcode t (firstn n s)) <= room)%nat ->
  ((n < length s)%nat -> (room < length (transcode t (firstn (S n) s)))%nat) -> transcode t (firstn n s) = fit t s room.
Proof.
  intros F s. induction s as [|c s IH]; intros room n L1 L2 L3; [destruct n; [reflexivity|cbn in L1; lia]|].
  cbn [fit]. destruct n as [|n].
  - cbn [firstn length] in *. specialize (L3 ltac:(lia)). rewrite transcode_cons, app_length in L3. cbn [transcode map concat length] in L3.
    destruct (Nat.ltb_spec room (length (written t c))); [reflexivity|lia].
  - change (firstn (S n) (c :: s)) with (c :: firstn n s) in *. change (firstn (S (S n)) (c :: s)) with (c :: firstn (S n) s) in *.
    rewrite !transcode_cons, !app_length in *. cbn [length] in *.
    destruct (Nat.ltb_spec room (length (written t c))); [lia|]. f_equal. apply IH; [lia|lia|intros; specialize (L3 ltac:(lia)); lia].
Qed.
Lemma setup_decode_ok g st s t : mem st s -> s_kind st = MEM -> s_bufsize st = s_size st -> full t ->
  exists st', setup_decode g st t = Ok (Some st') /\ mem st' (fit t s (length s)).
Proof.
  intros (pre & post & W & B & P & I & Z) K Bs F. unfold setup_decode. rewrite B, I, Z.
  replace (Z.of_nat (length pre) + Z.of_nat (length s) - Z.of_nat (length pre)) with (Z.of_nat (length s)) by lia.
  rewrite mem_sub_app by reflexivity. cbn [bind].
  assert (Em : exists z, memcpy_to (repeat NUL (Z.to_nat (s_bufsize st * 2 + 1))) 0 s = Ok (s ++ z)).
  { unfold memcpy_to. change (0 <? 0) with false. cbn [orb]. rewrite repeat_length.
    destruct (Z.ltb_spec (Z.of_nat (Z.to_nat (s_bufsize st * 2 + 1))) (0 + Z.of_nat (length s))); [lia|]. eexists. reflexivity. }
  destruct Em as (z & Em). rewrite Em. cbn [bind]. rewrite ptr_at_app by reflexivity. cbn [bind].
  rewrite Bs, Z. replace (Z.to_nat (Z.of_nat (length pre) + Z.of_nat (length s) - Z.of_nat (length pre))) with (length s) by lia.
  destruct (decode_ok t (Decoder (s ++ z) (length s) 0) (s ++ post) (length s) F) as (n & k' & out' & N1 & E & _ & _ & _ & O & N2 & N3).
  { unfold sane. cbn. rewrite app_length. lia. }
  { rewrite app_length. lia. }
  assert (Pd : pending (Decoder (s ++ z) (length s) 0) = s) by (unfold pending; cbn [k_last k_temp]; apply firstn_app_len).
  rewrite Pd in *. cbn [k_last] in *. rewrite E. cbn [bind]. eexists. split; [reflexivity|].
  pose proof (fit_is t F s (length s) n N1 N2 N3) as Ef. rewrite Ef in E, O, N2 |- *. clear Ef. set (f := fit t s (length s)) in *. clearbody f. subst out'.
  exists pre, (skipn (length f) (s ++ post)). cbn [s_kind s_buf s_idx s_size].
  replace (Z.to_nat (Z.of_nat (length pre))) with (length pre) by lia. rewrite firstn_app_len.
  split; [rewrite K; apply whole_mem; reflexivity|]. split; [reflexivity|]. split; [|split; lia].
  intros X. apply (f_equal (@length _)) in X. rewrite skipn_length, app_length in X. destruct post; [contradiction|]. cbn [length] in X. lia.
Qed.
Definition checked (s : bytes) : bool := match check_utf8 (s ++ [NUL]) (Z.of_nat (length s)) with Ok (b, _) => b | _ => false end.
Lemma checked_row s : checked s = true <-> row shape s.
Proof.
  unfold checked. destruct (check_cases s [NUL]) as [[R E]|(good & rest & Eg & Rg & St & E)]; rewrite E; [tauto|].
  split; [discriminate|]. intros R. exfalso. exact (row_stuck good rest s Rg St R Eg).
Qed.
Lemma setup_check_ok st s : mem st s -> s_kind st = MEM -> setup_check st = Ok (if checked s then Some st else None).
Proof.
  assert (Same : forall st : stream, s_kind st = MEM -> Stream (with_handler MEM HCheck) (s_buf st) (s_bufsize st) (s_size st) (s_idx st) (s_prev st) = st) by (intros [k b bs sz i p]; cbn; intros ->; reflexivity).
  intros (pre & post & W & B & P & I & Z) K. unfold setup_check. rewrite K, Same by exact K. rewrite B, I, Z.
  replace (Z.of_nat (length pre) + Z.of_nat (length s) - Z.of_nat (length pre)) with (Z.of_nat (length s)) by lia.
  rewrite ptr_at_app by reflexivity. cbn [bind]. unfold checked.
  destruct (check_cases s [NUL]) as [[R E]|(good & rest & Eg & Rg & St & E)]; rewrite E.
  - apply (proj1 (check_accepts s post)) in R. rewrite R. reflexivity.
  - assert (X : check_utf8 (s ++ post) (Z.of_nat (length s)) = Ok (false, length good)) by (apply check_rejects; eauto 6). rewrite X. reflexivity.
Qed.

(** ** configuring *)
Fixpoint picked (l : list (bytes * table)) (n : bytes) (t : option table) : option table :=
  match l with
  | [] => t
  | (name, table) :: l => picked l n (if bytes_eqb n name then Some table else t)
  end.
Definition plain_names (l : list (bytes * table)) : bool := forallb (fun p => forallb (fun c => negb (Ascii.eqb c NUL)) (fst p)) l.
Lemma cmp_name n r name : nul_free n -> nul_free name -> axl_cmp (Some (n ++ NUL :: r)) (Some (cs name)) = Ok (bytes_eqb n name).
Proof. intros H1 H2. cbn [axl_cmp]. unfold cs. rewrite cmp_loop_cs, !cstr_id by assumption. reflexivity. Qed.
Lemma pick_ok l n r t : nul_free n -> plain_names l = true -> pick l (Some (n ++ NUL :: r)) t = Ok (picked l n t).
Proof.
  intros Hn. revert t. induction l as [|[name tb] l IH]; intros t H; cbn [pick picked]; [reflexivity|].
  unfold plain_names in H. cbn [forallb fst] in H. apply andb_true_iff in H. destruct H as [H1 H2].
  rewrite cmp_name by (assumption || apply nul_free_lit, H1). cbn [bind]. apply IH, H2.
Qed.
Lemma pick_none l t : pick l None t = Ok t.
Proof. induction l as [|[name tb] l IH]; cbn [pick axl_cmp bind]; [reflexivity|exact IH]. Qed.
Lemma picked_in l n o t : picked l n o = Some t -> o = Some t \/ exists name, In (name, t) l /\ n = name.
Proof.
  revert o. induction l as [|[name tb] l IH]; intros o H; cbn [picked] in H; [auto|].
  destruct (IH _ H) as [E|(m & I & E)]; [|right; exists m; split; [right; exact I|exact E]].
  destruct (bytes_eqb n name) eqn:B; [|auto]. injection E as <-. right. exists name. split; [left; reflexivity|apply bytes_eqb_eq, B].
Qed.
Lemma encodings_tables : map snd encodings = map fst shipped.
Proof. reflexivity. Qed.
Lemma encodings_full n t : picked encodings n None = Some t -> full t.
Proof.
  intros H. apply picked_in in H. destruct H as [H|(name & I & _)]; [discriminate|].
  apply (in_map snd) in I. cbn [snd] in I. rewrite encodings_tables in I. apply in_map_iff in I. destruct I as ([t' p] & E & I). cbn [fst] in E. subst t'.
  apply (tables_ok t p I).
Qed.
(** what is left of the text [s], [None] when it is refused *)
Definition b_text (n : option bytes) (s : bytes) : option bytes :=
  match n with
  | None => Some s
  | Some n =>
    if bytes_eqb n (s2b "utf8") then if checked s then Some s else None
    else match picked encodings n None with None => Some s | Some t => Some (fit t s (length s)) end
  end.
Definition name_of (d : pdoc) : option bytes :=
  match p_encoding d with
  | None => None
  | Some e => match normalise e with Ok b => Some (cstr b) | _ => None end
  end.
Definition b_configure (s : bytes) (d : pdoc) : option (bytes * pdoc) :=
  match b_text (name_of d) s with
  | None => None
  | Some s => Some (s, with_encoding d (Some (s2b "utf-8")))
  end.
Definition sized (st : stream) : Prop := s_kind st = MEM /\ s_bufsize st = s_size st.
Lemma sized_fixed st st' : sized st -> fixed st st' -> sized st'.
Proof. intros [K B] F. destruct (F K) as (K' & B' & S'). split; congruence. Qed.
Lemma doc_configure_ok g st s d : mem st s -> sized st -> sim (doc_configure g st d) (b_configure s d).
Proof.
  intros M [K Bs]. unfold doc_configure, b_configure, name_of.
  assert (X : forall n r, nul_free n -> match (match b_text (Some n) s with None => None | Some s => Some (s, with_encoding d (Some (s2b "utf-8"))) end) with
     | None => babel_configure g st (Some (n ++ NUL :: r)) = Ok None
     | Some (s', d') => exists st', babel_configure g st (Some (n ++ NUL :: r)) = Ok (Some st') /\ mem st' s' /\ d' = with_encoding d (Some (s2b "utf-8")) end).
  { intros n r Nf. unfold babel_configure. rewrite pick_ok by (assumption || reflexivity). cbn [bind].
    rewrite cmp_name by (assumption || apply nul_free_lit; reflexivity). cbn [bind b_text].
    destruct (bytes_eqb n (s2b "utf8")).
    - rewrite (setup_check_ok st s M K). destruct (checked s); [exists st; auto|reflexivity].
    - destruct (picked encodings n None) as [t|] eqn:Pk; [|exists st; auto].
      destruct (setup_decode_ok g st s t M K Bs (encodings_full n t Pk)) as (st' & E & M'). exists st'. auto. }
  destruct (p_encoding d) as [e|].
  - destruct (normalise_ok e) as (t & r & E & _ & Nf).
    match goal with |- sim (bind ?x _) _ => change x with (b <- normalise e ;; Ok (Some b)) || idtac end.
    assert (En : ('(b, _) <- stream_trim_with_size (cs e) ;; b <- stream_remove b (cs (s2b "-")) false ;; b <- stream_remove b (cs (s2b "_")) false ;;
       b <- common_to to_lower b ;; Ok (Some b)) = Ok (Some (map to_lower (filter BdocSpec.kept t) ++ NUL :: r))).
    { unfold normalise in E. apply bind_ok in E. destruct E as ([b0 z0] & E0 & E). rewrite E0. cbn [bind].
      apply bind_ok in E. destruct E as (b1 & E1 & E). rewrite E1. cbn [bind]. apply bind_ok in E. destruct E as (b2 & E2 & E). rewrite E2. cbn [bind].
      apply bind_ok in E. destruct E as (b3 & E3 & E). rewrite E3. cbn [bind]. injection E as ->. reflexivity. }
    rewrite En, E. cbn [bind]. replace (cstr (map to_lower (filter BdocSpec.kept t) ++ NUL :: r)) with (map to_lower (filter BdocSpec.kept t)).
    2: { clear - Nf. induction (map to_lower (filter BdocSpec.kept t)) as [|c l IH]; [reflexivity|]. apply nul_free_cons in Nf. destruct Nf as [Hc Nf].
         cbn [app cstr]. rewrite Hc. f_equal. apply IH, Nf. }
    specialize (X _ r Nf). destruct (b_text _ s) as [s'|].
    + destruct X as (st' & -> & M' & _). cbn [bind]. eexists. split; [reflexivity|exact M'].
    + rewrite X. reflexivity.
  - cbn [bind b_text]. unfold babel_configure. rewrite pick_none. cbn [bind axl_cmp]. eexists. split; [reflexivity|exact M].
Qed.

(** ** the start *)
Definition isp (c s : bytes) : bool := match after c s with Some _ => true | None => false end.
Lemma codes_ok st pre s post : s_buf st = pre ++ s ++ post -> s_idx st = Z.of_nat (length pre) ->
  forall l a s', s = a ++ s' -> (length l <= length s')%nat -> inspect_codes st l (Z.of_nat (length a)) = Ok (isp l s').
Proof.
  intros B I. induction l as [|c l IH]; intros a s' E L; cbn [inspect_codes]; [reflexivity|].
  destruct s' as [|x s']; [cbn in L; lia|]. unfold inspect_code. rewrite B, I, E.
  assert (R : rd (pre ++ (a ++ x :: s') ++ post) (Z.of_nat (length pre) + Z.of_nat (length a)) = Ok x).
  { unfold rd. destruct (Z.ltb_spec (Z.of_nat (length pre) + Z.of_nat (length a)) 0); [lia|].
    replace (Z.to_nat (Z.of_nat (length pre) + Z.of_nat (length a))) with (length (pre ++ a)) by (rewrite app_length; lia).
    rewrite <- app_assoc. rewrite (app_assoc pre a). rewrite nth_error_app2 by lia. rewrite Nat.sub_diag. reflexivity. }
  rewrite R. cbn [bind]. unfold isp. cbn [after]. destruct (Ascii.eqb_spec x c) as [->|N].
  - rewrite Ascii.eqb_refl. replace (Z.of_nat (length a) + 1) with (Z.of_nat (length (a ++ [c]))) by (rewrite app_length; cbn [length]; lia).
    rewrite (IH (a ++ [c]) s'); [reflexivity|rewrite E, <- app_assoc; reflexivity|cbn [length] in L; lia].
  - destruct (Ascii.eqb_spec c x); [congruence|reflexivity].
Qed.
Definition U16 : bytes := ["255"; "254"]%char.
(** the text after the mark, as the detection leaves it and as the parser sees it after looking
    for the mark again *)
Definition b_start (s : bytes) : option bytes :=
  if (length s <? 4)%nat then None
  else
    match after BOM s with
    | Some r => Some r
    | None =>
      match after U16 s with
      | Some r => Some (match after BOM r with Some _ => tl r | None => r end)
      | None =>
        match s with
        | c :: x :: _ => if Ascii.eqb c "<" && negb (Ascii.eqb x "<") && negb (Ascii.eqb x ">") then Some s else None
        | _ => None
        end
      end
    end.
Lemma code_is st c off : inspect_code st c off = (b <- inspect_codes st [c] off ;; Ok b).
Proof. cbn [inspect_codes]. destruct (inspect_code st c off) as [[|]| |]; reflexivity. Qed.
Lemma check_here st pre s post : s_buf st = pre ++ s ++ NUL :: post -> s_idx st = Z.of_nat (length pre) ->
  stream_check st BOM = Ok (isp BOM s).
Proof.
  intros B I. unfold stream_check. rewrite B, I, ptr_at_app by reflexivity. cbn [bind].
  apply (memcmp_cs_end BOM s post (Z.of_nat (length BOM))); [nf|discriminate|reflexivity].
Qed.
Lemma start_ok content :
  match b_start content with
  | None => detect (stream_mem content) = Ok None
  | Some s => exists st e st', detect (stream_mem content) = Ok (Some (st, e)) /\
      (bom <- stream_check st ["239"; "187"; "191"]%char ;; Ok (if (bom : bool) then stream_move st 3 else st)) = Ok st' /\
      mem st' s /\ sized st'
  end.
Proof.
  unfold b_start, detect. cbn [s_size stream_mem].
  replace (Z.of_nat (length content) <? 4) with (length content <? 4)%nat by (destruct (Nat.ltb_spec (length content) 4), (Z.ltb_spec (Z.of_nat (length content)) 4); lia || reflexivity).
  destruct (Nat.ltb_spec (length content) 4) as [L|L]; [reflexivity|].
  set (st := stream_mem content).
  assert (B : s_buf st = [] ++ content ++ [NUL]) by reflexivity.
  assert (M : mem st content) by apply mem_new.
  assert (Sz : sized st) by (split; reflexivity).
  pose proof (fun l => codes_ok st [] content [NUL] B eq_refl l [] content eq_refl) as C. change (Z.of_nat (length [])) with 0 in C.
  rewrite (C ["239"; "187"; "191"]%char) by (cbn [length]; lia). cbn [bind]. change ["239"; "187"; "191"]%char with BOM.
  destruct (isp BOM content) eqn:IB; unfold isp in IB; destruct (after BOM content) as [r|] eqn:A; try discriminate IB; clear IB.
  { apply after_Some in A. eexists _, _, _. split; [reflexivity|]. change (s_idx st + 3) with 3.
    assert (M1 : mem (stream_move st 3) r) by (change (stream_move st 3) with (set_pos st 3 0); rewrite A in M; apply (mem_advance st BOM r); [exact M|reflexivity]).
    rewrite (check_here (stream_move st 3) BOM r []) by first [reflexivity|change (s_buf (stream_move st 3)) with (content ++ [NUL]); rewrite A, <- app_assoc; reflexivity]. cbn [bind]. split; [reflexivity|].
    destruct (isp BOM r); (split; [exact M1|split; reflexivity]). }
  rewrite (C ["255"; "254"]%char) by (cbn [length]; lia). cbn [bind]. change ["255"; "254"]%char with U16.
  destruct (isp U16 content) eqn:IB; unfold isp in IB; destruct (after U16 content) as [r|] eqn:A2; try discriminate IB; clear IB.
  { apply after_Some in A2. eexists _, _, _. split; [reflexivity|]. change (s_idx st + 2) with 2.
    assert (M1 : mem (stream_move st 2) r) by (change (stream_move st 2) with (set_pos st 2 0); rewrite A2 in M; apply (mem_advance st U16 r); [exact M|reflexivity]).
    rewrite (check_here (stream_move st 2) U16 r []) by first [reflexivity|change (s_buf (stream_move st 2)) with (content ++ [NUL]); rewrite A2, <- app_assoc; reflexivity]. cbn [bind]. split; [reflexivity|].
    unfold isp. destruct (after BOM r) as [r'|] eqn:A3; [|split; [exact M1|split; reflexivity]].
    apply after_Some in A3. split; [|split; reflexivity]. rewrite A3 in *. cbn [tl app BOM] in *.
    change (stream_move (stream_move st 2) 3) with (set_pos (stream_move st 2) 3 0). apply (mem_advance (stream_move st 2) ["239"%char]); [exact M1|reflexivity]. }
  assert (C4 : inspect_codes st ["255"; "254"; "000"; "000"]%char 0 = Ok false).
  { rewrite (C ["255"; "254"; "000"; "000"]%char) by (cbn [length]; lia). unfold isp. f_equal. unfold U16 in A2.
    destruct content as [|c0 [|c1 r]]; [reflexivity| |].
    - cbn [after]. destruct (Ascii.eqb "255" c0); reflexivity.
    - cbn [after] in A2 |- *. destruct (Ascii.eqb "255" c0); [|reflexivity]. destruct (Ascii.eqb "254" c1); [discriminate|reflexivity]. }
  rewrite C4. cbn [bind]. clear C4.
  rewrite (C ["060"; "063"; "120"; "109"]%char) by (cbn [length]; lia). cbn [bind].
  assert (Ck : stream_check st BOM = Ok false).
  { rewrite (check_here st [] content [] B eq_refl). unfold isp. rewrite A. reflexivity. }
  assert (Fin : exists e st', Ok (Some (st, @None bytes)) = Ok (Some (st, e)) /\ (bom <- stream_check st BOM ;; Ok (if (bom : bool) then stream_move st 3 else st)) = Ok st' /\ mem st' content /\ sized st').
  { exists (@None bytes), st. rewrite Ck. cbn [bind]. split; [reflexivity|]. split; [reflexivity|]. split; assumption. }
  destruct content as [|c [|x r]]; [cbn in L; lia|cbn in L; lia|].
  destruct (isp ["060"; "063"; "120"; "109"]%char (c :: x :: r)) eqn:Xm.
  { assert (c = "<"%char /\ x = "?"%char) as [-> ->].
    { clear - Xm. unfold isp in Xm. cbn [after] in Xm. destruct (Ascii.eqb_spec "060" c) as [<-|]; [|discriminate]. destruct (Ascii.eqb_spec "063" x) as [<-|]; [|discriminate]. auto. }
    cbn [Ascii.eqb andb negb Bool.eqb]. exists st. exact Fin. }
  rewrite !code_is. rewrite (C ["060"%char]) by (cbn [length]; lia). cbn [bind].
  replace (isp ["060"%char] (c :: x :: r)) with (Ascii.eqb c "<") by (unfold isp; cbn [after]; rewrite (Ascii.eqb_sym "060" c); destruct (Ascii.eqb c "060"); reflexivity).
  destruct (Ascii.eqb c "<") eqn:Ec; [|reflexivity]. cbn [andb].
  pose proof (fun l => codes_ok st [] (c :: x :: r) [NUL] B eq_refl l [c] (x :: r) eq_refl) as C1. change (Z.of_nat (length [c])) with 1 in C1.
  rewrite (C1 ["060"%char]) by (cbn [length]; lia). cbn [bind]. rewrite (C1 ["062"%char]) by (cbn [length]; lia). cbn [bind].
  replace (isp ["060"%char] (x :: r)) with (Ascii.eqb x "<") by (unfold isp; cbn [after]; rewrite (Ascii.eqb_sym "060" x); destruct (Ascii.eqb x "060"); reflexivity).
  replace (isp ["062"%char] (x :: r)) with (Ascii.eqb x ">") by (unfold isp; cbn [after]; rewrite (Ascii.eqb_sym "062" x); destruct (Ascii.eqb x "062"); reflexivity).
  destruct (negb (Ascii.eqb x "<") && negb (Ascii.eqb x ">")); [exists st; exact Fin|reflexivity].
Qed.

(** ** the whole *)
Definition b_head (s : bytes) (d : pdoc) : res (option (bytes * pdoc)) :=
  if insp s (s2b "<?") =? 0 then Ok (Some (s, d)) else a_decl (rest_of s (s2b "<?")) d.
Definition b_tail (s : bytes) (d : pdoc) : option doc :=
  match a_doctype s d with
  | None => None
  | Some (s, d) => match a_body s d with None => None | Some (_, d) => a_done d end
  end.
Definition b_parse (content : bytes) : res (option doc) :=
  match b_start content with
  | None => Ok None
  | Some s =>
    x <- b_head s pdoc_new ;;
    match x with
    | None => Ok None
    | Some (s, d) => Ok (match b_configure s d with None => None | Some (s, d) => b_tail s d end)
    end
  end.
