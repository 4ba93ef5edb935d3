(** Properties C14, C15, C16 (support/midi.hpp).  Theorems only. *)
From Coq Require Import String Ascii.
From Verif Require Import Common Midi_Model Midi_Spec Midi_Proof.
Open Scope N_scope.

(** C14: for every legal event the constructed object holds exactly the bytes of the
    MIDI standard, its accessors return the fields, the status byte has its high bit
    set and the data bytes have it clear. *)
Theorem C14_message_roundtrip :
  forall e : event, legal e ->
    m_data (construct e) = wire e /\ read (construct e) = e /\
    exists s ds, wire e = s :: ds /\ 128 <= s < 256 /\ Forall (fun d => d < 128) ds.
Proof. exact (fun e L => conj (construct_wire e L) (conj (read_construct e L) (wire_status_high e L))). Qed.
Print Assumptions C14_message_roundtrip.

(** C14: distinct legal events have distinct bytes. *)
Theorem C14_messages_distinct :
  forall e1 e2 : event, legal e1 -> legal e2 ->
    m_data (construct e1) = m_data (construct e2) -> e1 = e2.
Proof.
  intros e1 e2 L1 L2. rewrite (construct_wire e1 L1), (construct_wire e2 L2). exact (wire_inj e1 e2 L1 L2).
Qed.
Print Assumptions C14_messages_distinct.

(** C14: the same object is obtained from a raw 32-bit message carrying those bytes
    (whatever the unused bytes hold), and by the two-byte constructors. *)
Theorem C14_from_raw :
  forall (e : event) (raw : N), legal e -> carries raw (wire e) ->
    from_raw (m_kind (construct e)) raw = construct e.
Proof. exact from_raw_carries. Qed.
Print Assumptions C14_from_raw.

Theorem C14_two_byte_constructors :
  forall c lsb msb : N, c < 16 -> lsb < 128 -> msb < 128 ->
    pitch_bend2 c lsb msb = construct (PitchBend c (lsb + 128 * msb)) /\
    song_position2 lsb msb = construct (SongPosition (lsb + 128 * msb)).
Proof. exact two_byte_ctors. Qed.
Print Assumptions C14_two_byte_constructors.

(** C14 needs the channel range: nothing masks it, and note_off on channel 16 is the
    byte sequence of note_on on channel 0. *)
Theorem C14_channel_range_refuted :
  m_data (note_off 16 60 100) = m_data (note_on 0 60 100).
Proof. reflexivity. Qed.
Print Assumptions C14_channel_range_refuted.

Example C14_example :
  legal (PitchBend 3 8193) /\ m_data (construct (PitchBend 3 8193)) = [0xE3; 1; 64] /\
  carries 0xAB4001E3 (wire (PitchBend 3 8193)) /\ legal (NoteOn 15 127 1).
Proof.
  split; [cbn; lia|]. split; [reflexivity|]. split; [|cbn; lia].
  split; [reflexivity|]. intros [|[|[|i]]] b H; cbn in H; try (injection H as <-; reflexivity).
  destruct i; discriminate H.
Qed.

(** C15: a raw message carrying a legal channel voice event makes exactly one handler
    call, of the right class, with the original fields and the given time. *)
Theorem C15_dispatch_voice :
  forall (e : event) (raw t : N), legal e -> is_voice e = true -> carries raw (wire e) ->
    dispatch raw t = [(construct e, t)] /\ read (construct e) = e.
Proof. exact (fun e raw t L V C => conj (dispatch_voice e raw t L V C) (read_construct e L)). Qed.
Print Assumptions C15_dispatch_voice.

(** C15: for every raw word with a voice status (even with malformed data bytes) there
    is exactly one call, selected by the high nibble, carrying the raw bytes. *)
Theorem C15_dispatch_any_voice_status :
  forall raw t : N, 128 <= raw mod 256 < 240 ->
  exists k, nth_error voice_kinds (N.to_nat (raw mod 256 / 16 - 8)) = Some k /\
    dispatch raw t = [(mkMsg k (firstn (msize k) [raw mod 256; (raw / 256) mod 256; (raw / 65536) mod 256]), t)].
Proof. exact dispatch_any. Qed.
Print Assumptions C15_dispatch_any_voice_status.

(** C15: everything else calls nothing: data bytes in the status position... *)
Theorem C15_dispatch_ignores_non_status :
  forall raw t : N, raw mod 256 < 128 -> dispatch raw t = [].
Proof. exact (fun raw t H => dispatch_other raw t (or_introl H)). Qed.
Print Assumptions C15_dispatch_ignores_non_status.

(** ... and, contrary to the handlers declared for them, every system message: the
    switch masks the status with 0xF0, so no system event is ever dispatched. *)
Theorem C15_system_messages_refuted :
  forall (e : event) (raw t : N), legal e -> is_voice e = false -> carries raw (wire e) ->
    dispatch raw t = [].
Proof.
  intros e raw t L V [_ C]. apply dispatch_other. right.
  specialize (C 0%nat). change (256 ^ N.of_nat 0) with 1 in C. rewrite N.div_1_r in C.
  destruct e; try discriminate V; rewrite (C _ eq_refl); discriminate.
Qed.
Print Assumptions C15_system_messages_refuted.

(** C15: n calls of midi_input_stream::process dispatch the first n queued events, in
    order, once each, and leave the others queued. *)
Theorem C15_process_in_order :
  forall (n : nat) (q : list (N * N)),
    process_n true n q =
    (skipn n q, concat (map (fun e => dispatch (fst e mod 2 ^ 32) (snd e)) (firstn n q))).
Proof. exact process_n_spec. Qed.
Print Assumptions C15_process_in_order.

Example C15_example :
  dispatch 0x643C93 7 = [(construct (NoteOn 3 60 100), 7)] /\ carries 0x643C93 (wire (NoteOn 3 60 100)) /\
  carries 0xF8 (wire TimingTick) /\ dispatch 0xF8 7 = [] /\
  snd (process_n true 2 [(0x643C93, 1); (0x403C83, 2); (0x643C93, 3)]) =
  [(construct (NoteOn 3 60 100), 1); (construct (NoteOff 3 60 64), 2)].
Proof.
  split; [reflexivity|].
  split; [split; [reflexivity|]; intros [|[|[|i]]] b H; cbn in H; try (injection H as <-; reflexivity); destruct i; discriminate H|].
  split; [split; [reflexivity|]; intros [|i] b H; cbn in H; try (injection H as <-; reflexivity); destruct i; discriminate H|].
  split; reflexivity.
Qed.

(** C16: every key from 12 (C0) to 127 has a name, the standard one, and note_number
    inverts it; names are unique over all 128 keys. *)
Theorem C16_note_name_roundtrip :
  forall k : N, 12 <= k < 128 ->
    note_number (note_name k) = Some (Z.of_N k) /\ names (note_name k) (Z.of_N k).
Proof.
  intros k [H1 H2]. pose proof (note_roundtrip k H2) as R.
  destruct (N.ltb_spec k 12) as [H|_]; [lia|]. split; [exact R|].
  exact (note_name_names k H1 H2).
Qed.
Print Assumptions C16_note_name_roundtrip.

Theorem C16_note_names_unique :
  forall a b : N, a < 128 -> b < 128 -> note_name a = note_name b -> a = b.
Proof. exact note_names_inj. Qed.
Print Assumptions C16_note_names_unique.

(** C16: on every ASCII string starting with a note letter, note_number returns the key
    of a well-formed name and -1 exactly when the string is not one. *)
Theorem C16_note_number_parses :
  forall (c : ascii) (t : string), letter_semitone c <> None -> all_ascii7 (String c t) ->
  (exists k, names (String c t) k /\ note_number (String c t) = Some k) \/
  ((forall k, ~ names (String c t) k) /\ note_number (String c t) = Some (-1)%Z).
Proof. exact (fun c t => note_number_spec (String c t) c t eq_refl). Qed.
Print Assumptions C16_note_number_parses.

(** C16: the enumerators of enum class note have the number of the key they spell. *)
Theorem C16_note_enum :
  forall n v, In (n, v) note_values -> note_number (enum_string n) = Some (Z.of_N v).
Proof. exact enum_agrees. Qed.
Print Assumptions C16_note_enum.

(** C16 fails for the names of the lowest octave (the parser has no sign) ... *)
Theorem C16_negative_octave_refuted :
  forall k : N, k < 12 -> note_number (note_name k) = Some (-1)%Z.
Proof.
  intros k H. rewrite (note_roundtrip k) by lia. destruct (N.ltb_spec k 12); [reflexivity|lia].
Qed.
Print Assumptions C16_negative_octave_refuted.

(** ... and "returns -1 if parsing failed" fails for other letters: the result is
    computed from an uninitialised variable. *)
Theorem C16_bad_letter_refuted : note_number "H4" = None.
Proof. vm_compute; reflexivity. Qed.
Print Assumptions C16_bad_letter_refuted.

Example C16_example :
  note_number "Eb4" = Some 63%Z /\ note_number "c#5" = Some 73%Z /\ note_number "A4" = Some 69%Z /\
  note_number "A44" = Some (-1)%Z /\ In ("Fs4"%string, 66) note_values /\ List.length note_values = 164%nat /\
  letter_semitone "c" <> None /\ all_ascii7 "c#5".
Proof.
  split; [vm_compute; reflexivity|]. split; [vm_compute; reflexivity|]. split; [vm_compute; reflexivity|].
  split; [vm_compute; reflexivity|].
  split; [vm_compute; tauto|]. split; [vm_compute; reflexivity|]. split; [discriminate|].
  cbn. repeat split; reflexivity.
Qed.
