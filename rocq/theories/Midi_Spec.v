(** MIDI 1.0 as a user knows it: events with fields, their bytes on the wire, and the
    numbering of note names. *)
From Coq Require Import String Ascii.
From Verif Require Import Common Midi_Model.
Open Scope N_scope.

Inductive event :=
| NoteOff (ch key vel : N) | NoteOn (ch key vel : N) | PolyAftertouch (ch key pressure : N)
| ControlChange (ch ctrl val : N) | ProgramChange (ch preset : N)
| ChannelAftertouch (ch pressure : N) | PitchBend (ch val : N)
| SongPosition (pos : N) | SongSelect (n : N)
| TuneRequest | TimingTick | Start | Continue | Stop | ActiveSensing | Reset.

Definition legal (e : event) : Prop :=
  match e with
  | NoteOff c a b | NoteOn c a b | PolyAftertouch c a b | ControlChange c a b => c < 16 /\ a < 128 /\ b < 128
  | ProgramChange c a | ChannelAftertouch c a => c < 16 /\ a < 128
  | PitchBend c v => c < 16 /\ v < 16384
  | SongPosition v => v < 16384
  | SongSelect n => n < 128
  | _ => True
  end.

(** the bytes the MIDI 1.0 standard prescribes *)
Definition wire (e : event) : list N :=
  match e with
  | NoteOff c a b => [128 + c; a; b]
  | NoteOn c a b => [144 + c; a; b]
  | PolyAftertouch c a b => [160 + c; a; b]
  | ControlChange c a b => [176 + c; a; b]
  | ProgramChange c a => [192 + c; a]
  | ChannelAftertouch c a => [208 + c; a]
  | PitchBend c v => [224 + c; v mod 128; v / 128]
  | SongPosition v => [242; v mod 128; v / 128]
  | SongSelect n => [243; n]
  | TuneRequest => [246] | TimingTick => [248] | Start => [250] | Continue => [251]
  | Stop => [252] | ActiveSensing => [254] | Reset => [255]
  end.

(** building the library's message object for an event *)
Definition construct (e : event) : message :=
  match e with
  | NoteOff c a b => note_off c a b
  | NoteOn c a b => note_on c a b
  | PolyAftertouch c a b => poly_aftertouch c a b
  | ControlChange c a b => control_change c a b
  | ProgramChange c a => program_change c a
  | ChannelAftertouch c a => channel_aftertouch c a
  | PitchBend c v => pitch_bend c v
  | SongPosition v => song_position v
  | SongSelect n => song_select n
  | TuneRequest => tune_request | TimingTick => timing_tick | Start => start
  | Continue => continue_ | Stop => stop | ActiveSensing => active_sensing | Reset => reset
  end.

(** reading a message object through its accessors: channel(), key(), velocity(),
    pressure(), controller(), value(), preset(), position(), song_number() *)
Definition read (m : message) : event :=
  match m_kind m with
  | Knote_off => NoteOff (channel m) (byte m 1) (byte m 2)
  | Knote_on => NoteOn (channel m) (byte m 1) (byte m 2)
  | Kpoly_aftertouch => PolyAftertouch (channel m) (byte m 1) (byte m 2)
  | Kcontrol_change => ControlChange (channel m) (byte m 1) (byte m 2)
  | Kprogram_change => ProgramChange (channel m) (byte m 1)
  | Kchannel_aftertouch => ChannelAftertouch (channel m) (byte m 1)
  | Kpitch_bend => PitchBend (channel m) (value14 m)
  | Ksong_position => SongPosition (value14 m)
  | Ksong_select => SongSelect (byte m 1)
  | Ktune_request => TuneRequest | Ktiming_tick => TimingTick | Kstart => Start
  | Kcontinue => Continue | Kstop => Stop | Kactive_sensing => ActiveSensing | Kreset => Reset
  end.

(** channel voice messages, as opposed to system messages *)
Definition is_voice (e : event) : bool :=
  match e with
  | NoteOff _ _ _ | NoteOn _ _ _ | PolyAftertouch _ _ _ | ControlChange _ _ _
  | ProgramChange _ _ | ChannelAftertouch _ _ | PitchBend _ _ => true
  | _ => false
  end.

(** A 32-bit raw message carries a byte sequence in its low bytes (little endian);
    the remaining bytes are arbitrary. *)
Definition carries (raw : N) (bs : list N) : Prop :=
  raw < 2 ^ 32 /\
  forall i b, nth_error bs i = Some b -> (raw / 256 ^ N.of_nat i) mod 256 = b.

(** Note names.  Semitone of the natural letters within an octave; the key number of
    (letter, accidental, octave) with C-1 = 0. *)
Open Scope string_scope. Open Scope N_scope.
Definition letter_semitone (c : ascii) : option Z :=
  match c with
  | "C"%char | "c"%char => Some 0%Z | "D"%char | "d"%char => Some 2%Z
  | "E"%char | "e"%char => Some 4%Z | "F"%char | "f"%char => Some 5%Z
  | "G"%char | "g"%char => Some 7%Z | "A"%char | "a"%char => Some 9%Z
  | "B"%char | "b"%char => Some 11%Z | _ => None
  end.
Definition digit (d : nat) : string := String (ascii_of_nat (48 + d)) "".
(** [names s k]: s is a letter, an optional accidental and one octave digit, and k is
    the key it denotes *)
Definition names (s : string) (k : Z) : Prop :=
  exists c st (acc : string) (a : Z) d,
    letter_semitone c = Some st /\ (d <= 9)%nat /\
    (acc = "" /\ a = 0%Z \/ acc = "#" /\ a = 1%Z \/ acc = "b" /\ a = (-1)%Z) /\
    s = String c (acc ++ digit d) /\ k = (12 * (Z.of_nat d + 1) + st + a)%Z.

(** handlers of the channel voice messages in order of their status nibble 8..14 *)
Definition voice_kinds : list kind :=
  [Knote_off; Knote_on; Kpoly_aftertouch; Kcontrol_change; Kprogram_change; Kchannel_aftertouch; Kpitch_bend].

Definition ascii7 (c : ascii) : Prop := N_of_ascii c < 128.
Fixpoint all_ascii7 (s : string) : Prop :=
  match s with EmptyString => True | String c t => ascii7 c /\ all_ascii7 t end.

(** the string a user writes for an enumerator of enum class note: 's' means sharp *)
Definition enum_string (n : string) : string :=
  match n with
  | String l (String "s"%char (String d EmptyString)) => String l (String "#"%char (String d EmptyString))
  | _ => n
  end.
