(** Printed texts. *)
From Verif Require Import Prelude StrModel XmlSpec FmtModel FmtSpec FmtProofs FmtCases.
Open Scope Z_scope.

(** C73: printing into a buffer keeps what fits of the text, ends it, leaves the rest of the
    buffer as it was, and tells what was written and what would have been needed *)
Theorem C73_buffer : forall buf size f args out, prints f args out -> 0 < size -> size <= Z.of_nat (length buf) ->
  exists n, n = Z.min (Z.of_nat (length out)) (size - 1) /\
    printf_buffer buf size (Some f) args = Ok (n, Z.of_nat (length out), firstn (Z.to_nat n) out ++ [NUL] ++ skipn (Z.to_nat n + 1) buf).
Proof. exact buffer_is. Qed.
Print Assumptions C73_buffer.
Example C73_buffer_case : prints sample_format sample_args sample_out /\
  printf_buffer (str "--------") 6 (Some sample_format) sample_args = Ok (5, 16, str "100% " ++ [NUL] ++ str "--").
Proof. split; [exact sample_prints|]. vm_compute. reflexivity. Qed.
(** in a buffer without place it tells -1 instead of the 0 bytes written *)
Theorem C73_no_place_refuted : exists buf f args out n real buf', prints f args out /\ printf_buffer buf 0 (Some f) args = Ok (n, real, buf') /\ n < 0.
Proof. exists (str "-"), sample_format, sample_args, sample_out. do 3 eexists. split; [exact sample_prints|]. split; [vm_compute; reflexivity|reflexivity]. Qed.
Print Assumptions C73_no_place_refuted.

(** the length that is told is that of the text with its end *)
Theorem C73_length : forall f args out, prints f args out -> printf_len (Some f) args = Ok (Z.of_nat (length out) + 1).
Proof. exact len_is. Qed.
Print Assumptions C73_length.
Example C73_length_case : prints sample_format sample_args sample_out /\ printf_len (Some sample_format) sample_args = Ok 17.
Proof. split; [exact sample_prints|]. vm_compute. reflexivity. Qed.

(** a new text is the whole text, whatever its length; with its length, on every system *)
Theorem C73_new : forall f args out, prints f args out -> exists b, strdup_printf true (Some f) args = Ok (Some b) /\ holds b out.
Proof. exact strdup_is. Qed.
Print Assumptions C73_new.
Theorem C73_new_length : forall have f args out, prints f args out -> exists b, strdup_printf_len have (Some f) args = Ok (Some (b, Z.of_nat (length out))) /\ holds b out.
Proof. exact strdup_len_is. Qed.
Print Assumptions C73_new_length.
Example C73_new_case : prints sample_format sample_args sample_out /\ strdup_printf true (Some sample_format) sample_args = Ok (Some (cs sample_out)) /\
  strdup_printf_len false (Some sample_format) sample_args = Ok (Some (sample_out ++ [NUL; NUL; NUL], 16)).
Proof. split; [exact sample_prints|]. split; vm_compute; reflexivity. Qed.
(** where vasprintf is missing: only formats that take no argument *)
Theorem C73_portable_partial : forall f args out, prints f args out -> takes f = false -> exists b, strdup_printf false (Some f) args = Ok (Some b) /\ holds b out.
Proof. exact strdup_plain. Qed.
Print Assumptions C73_portable_partial.
Example C73_portable_case : prints (str "10%%") [] (str "10%") /\ takes (str "10%%") = false.
Proof. split; [|reflexivity]. do 2 (apply prints_char; [discriminate|]). apply prints_percent. constructor. Qed.
(** the arguments are read a second time after they have been read *)
Theorem C73_portable_refuted : exists f args out, prints f args out /\ strdup_printf false (Some f) args = UB.
Proof. exists sample_format, sample_args, sample_out. split; [exact sample_prints|]. apply (strdup_twice _ _ _ sample_prints). reflexivity. Qed.
Print Assumptions C73_portable_refuted.

(** numbers that differ are printed differently *)
Theorem C73_numbers : forall a b, dec a = dec b -> a = b.
Proof. exact dec_inj. Qed.
Print Assumptions C73_numbers.
Example C73_numbers_case : map dec [0; 7; -10; 2147483647] = map str ["0"; "7"; "-10"; "2147483647"]%string.
Proof. vm_compute. reflexivity. Qed.

(** an error that is reported is seen as one, with its code and its text *)
Theorem C73_report : forall code f args out, prints f args out -> exists e b, error_report true code (Some f) args = Ok e /\ error_was_ok (Some e) = false /\
  error_get_code (Some e) = code /\ error_get (Some e) = Some b /\ holds b out.
Proof. exact report_is. Qed.
Print Assumptions C73_report.
Example C73_report_case : prints sample_format sample_args sample_out /\ error_was_ok None = true /\ error_get_code None = -1.
Proof. split; [exact sample_prints|]. split; reflexivity. Qed.
(** with a place: the numbers and the texts around it are all there, in full *)
Theorem C73_place : forall code text p, exists e b, error_new true code text (Some p) = Ok e /\ error_was_ok (Some e) = false /\ error_get_code (Some e) = code /\ error_get (Some e) = Some b /\
  holds b (s2b "Error found (stream size: " ++ dec (p_size p) ++ s2b ", at byte " ++ dec (p_index p) ++ s2b " (global index: " ++ dec (p_global p) ++ s2b "), near to ..." ++ p_near p ++
    s2b "..., while reading: " ++ (match p_following p with Some s => s | None => [] end) ++ s2b "): " ++ text ++ ["010"%char]).
Proof. exact new_is. Qed.
Print Assumptions C73_place.
Example C73_place_case : exists e, error_new true (-2) (str "no end") (Some (Place 40 12 12 (str "<a b='c'") None)) = Ok e /\
  error_get (Some e) = Some (cs (str "Error found (stream size: 40, at byte 12 (global index: 12), near to ...<a b='c'..., while reading: ): no end" ++ ["010"%char])).
Proof. eexists. split; [vm_compute; reflexivity|]. vm_compute. reflexivity. Qed.
(** an error reported without a text is not seen *)
Theorem C73_silent_refuted : exists e, error_report true 5 None [] = Ok e /\ error_get_code (Some e) = 5 /\ error_was_ok (Some e) = true.
Proof. eexists. split; [reflexivity|]. split; reflexivity. Qed.
Print Assumptions C73_silent_refuted.
