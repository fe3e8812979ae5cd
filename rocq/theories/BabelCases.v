(** Concrete cases for the encodings. *)
From Coq Require Import NArith.
From Verif Require Import Prelude BabelModel BabelTables BabelPoints BabelSpec BabelExec BabelProofs BabelProofs2 BabelProofs3.
Open Scope nat_scope.
Open Scope list_scope.

Definition bs (l : list N) : bytes := map ascii_of_N l.
(** C0 80 is an overlong form of NUL *)
Lemma overlong : check_utf8 (bs [192; 128]%N) 2 = Ok (true, 0) /\ ~ utf8 (bs [192; 128]%N).
Proof.
  split; [vm_compute; reflexivity|]. intros (parts & F & E). destruct F as [|s parts S F]; [discriminate E|]. cbn [concat] in E.
  destruct S; cbn in E; injection E; intros; subst; unfold rng in *; cbn in *; lia.
Qed.
(** ED A0 80 is a surrogate *)
Lemma surrogate : check_utf8 (bs [237; 160; 128]%N) 3 = Ok (true, 0) /\ ~ utf8 (bs [237; 160; 128]%N).
Proof.
  split; [vm_compute; reflexivity|]. intros (parts & F & E). destruct F as [|s parts S F]; [discriminate E|]. cbn [concat] in E.
  destruct S; cbn in E; injection E; intros; subst; unfold rng in *; cbn in *; lia.
Qed.
(** F5 80 80 80 is beyond U+10FFFF *)
Lemma beyond : check_utf8 (bs [245; 128; 128; 128]%N) 4 = Ok (true, 0) /\ ~ utf8 (bs [245; 128; 128; 128]%N).
Proof.
  split; [vm_compute; reflexivity|]. intros (parts & F & E). destruct F as [|s parts S F]; [discriminate E|]. cbn [concat] in E.
  destruct S; cbn in E; injection E; intros; subst; unfold rng in *; cbn in *; lia.
Qed.
(** a well-formed text with sequences of one to four bytes *)
Definition sample : bytes := bs [97; 195; 177; 226; 130; 172; 240; 159; 152; 128]%N.
Lemma sample_utf8 : utf8 sample.
Proof.
  exists [bs [97]%N; bs [195; 177]%N; bs [226; 130; 172]%N; bs [240; 159; 152; 128]%N]. split; [|reflexivity].
  constructor; [apply u1; unfold rng; cbn; lia|]. constructor; [apply u2; unfold rng; cbn; lia|]. constructor; [apply u3; [left|..]; unfold rng; cbn; lia|]. constructor; [apply u4_f0; unfold rng; cbn; lia|constructor].
Qed.
(** a, a truncated sequence *)
Lemma truncated : check_utf8 (bs [97; 226; 130; 97]%N) 4 = Ok (false, 1).
Proof. vm_compute. reflexivity. Qed.

(** byte 165 is not part of ISO-8859-3 *)
Lemma undefined_lost : exists t p src1 src2, In (t, p) shipped /\ src1 <> src2 /\ transcode t src1 = transcode t src2.
Proof. exists table_3, points_3, (bs [165]%N), (bs [0]%N). split; [unfold shipped; do 2 right; left; reflexivity|]. split; [discriminate|]. vm_compute. reflexivity. Qed.

(** ISO-8859-15: a euro b, in buffers of 2, 3, 3 and 2 bytes *)
Definition euro : decoder := Decoder (bs [97; 164; 98; 0; 0]%N) 3 0.
Lemma euro_run : option_map (fun r => (pending (fst r), snd r)) (match decode_all table_15 euro [bs [0; 0]%N; bs [0; 0; 0]%N; bs [0; 0; 0]%N] with Ok r => Some r | _ => None end) =
  Some ([], [bs [97]%N; bs [226; 130; 172]%N; bs [98]%N]).
Proof. vm_compute. reflexivity. Qed.
Lemma euro_points : code_points points_15 (pending euro) = Some [97; 8364; 98]%N.
Proof. vm_compute. reflexivity. Qed.
Lemma euro_le : k_last euro <= length (k_temp euro).
Proof. cbn. lia. Qed.
