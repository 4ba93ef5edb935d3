From Coq Require Import String Ascii.
From Verif Require Import Common CommonFacts Midi_Model Midi_Spec.
Open Scope N_scope.

Lemma u8_small x : x < 256 -> u8 x = x.
Proof. apply N.mod_small. Qed.

(** enumerate the values below a literal bound *)
Lemma below_forallb (f : N -> bool) n :
  forallb f (List.map N.of_nat (seq 0 n)) = true -> forall x, x < N.of_nat n -> f x = true.
Proof.
  intros H x Hx. rewrite forallb_forall in H. apply H. apply in_map_iff.
  exists (N.to_nat x). split; [lia|]. apply in_seq. lia.
Qed.

Lemma lor_status ch st : ch < 16 ->
  List.In st [st_note_off; st_note_on; st_poly_aftertouch; st_control_change; st_program_change; st_channel_aftertouch; st_pitch_bend] ->
  u8 (N.lor ch st) = st + ch.
Proof.
  intros Hc Hs. revert ch Hc. cbn in Hs.
  repeat (destruct Hs as [<-|Hs]; [intros ch Hc; apply N.eqb_eq; revert ch Hc; refine (below_forallb _ 16 _); vm_compute; reflexivity|]). destruct Hs.
Qed.
Lemma chan_status ch st : ch < 16 ->
  List.In st [st_note_off; st_note_on; st_poly_aftertouch; st_control_change; st_program_change; st_channel_aftertouch; st_pitch_bend] ->
  u8 (N.land (st + ch) 15) = ch.
Proof.
  intros Hc Hs. revert ch Hc. cbn in Hs.
  repeat (destruct Hs as [<-|Hs]; [intros ch Hc; apply N.eqb_eq; revert ch Hc; refine (below_forallb _ 16 _); vm_compute; reflexivity|]). destruct Hs.
Qed.
Lemma land_127 v : N.land v 127 = v mod 128.
Proof. exact (land_pow2_pred v 7). Qed.
Lemma shr7 v : N.shiftr v 7 = v / 128.
Proof. exact (N.shiftr_div_pow2 v 7). Qed.
Lemma lor_split a b : a < 128 -> N.lor a (N.shiftl b 7) = a + 128 * b.
Proof.
  intros H.
  assert (D : N.land a (N.shiftl b 7) = 0).
  { apply N.bits_inj_0; intros i; rewrite N.land_spec.
    destruct (N.ltb_spec i 7).
    - rewrite N.shiftl_spec_low by lia. apply andb_false_r.
    - rewrite <- (N.mod_small a (2 ^ 7)) by exact H. rewrite N.mod_pow2_bits_high by lia. reflexivity. }
  rewrite <- N.lxor_lor by exact D. rewrite <- N.add_nocarry_lxor by exact D.
  rewrite N.shiftl_mul_pow2. change (2 ^ 7) with 128. lia.
Qed.

Lemma construct_wire e : legal e -> m_data (construct e) = wire e.
Proof.
  destruct e; cbn [construct wire legal]; intros L; try reflexivity;
  repeat match goal with H : _ /\ _ |- _ => destruct H end;
  unfold note_off, note_on, poly_aftertouch, control_change, program_change, channel_aftertouch,
    pitch_bend, song_position, song_select, mk3; cbn [m_data];
  try (rewrite lor_status by (assumption || (cbn; auto 10)));
  rewrite ?land_127, ?shr7, ?u8_small by (first [assumption | apply N.lt_trans with (m := 128); [assumption | reflexivity] | reflexivity | lia]); reflexivity.
Qed.

Lemma u16_small x : x < 65536 -> u16 x = x.
Proof. apply N.mod_small. Qed.

Lemma value14_spec k a v : v < 16384 -> value14 (mkMsg k [a; v mod 128; v / 128]) = v.
Proof.
  intros H. unfold value14, byte; cbn [m_data nth]. rewrite lor_split by lia.
  rewrite u16_small by lia. lia.
Qed.

Lemma mkMsg_eta m : m = mkMsg (m_kind m) (m_data m).
Proof. destruct m; reflexivity. Qed.

Lemma read_construct e : legal e -> read (construct e) = e.
Proof.
  intros L. pose proof (construct_wire e L) as W.
  rewrite (mkMsg_eta (construct e)), W. clear W.
  destruct e; cbn in L |- *; unfold read; cbn [m_kind m_data]; try reflexivity;
  repeat match goal with H : _ /\ _ |- _ => destruct H end;
  unfold channel, byte; cbn [m_data nth];
  rewrite ?value14_spec by assumption; try reflexivity;
  match goal with |- context [u8 (N.land (?s + ?c) 15)] =>
    rewrite (chan_status c s) by (assumption || (cbn; auto 10)) end; reflexivity.
Qed.

Lemma wire_status_high e : legal e -> exists s ds, wire e = s :: ds /\ 128 <= s < 256 /\ Forall (fun d => d < 128) ds.
Proof.
  destruct e; cbn; intros L; repeat match goal with H : _ /\ _ |- _ => destruct H end;
  eexists; eexists; (split; [reflexivity|]); (split; [lia|]);
  repeat (apply Forall_cons; [lia|]); apply Forall_nil.
Qed.

Lemma wire_inj e1 e2 : legal e1 -> legal e2 -> wire e1 = wire e2 -> e1 = e2.
Proof.
  intros L1 L2 E. destruct e1, e2; cbn in L1, L2, E; try reflexivity;
  repeat match goal with H : _ /\ _ |- _ => destruct H end;
  try discriminate E; injection E; intros; subst; try (exfalso; lia); try (f_equal; lia).
Qed.

Lemma land_255 x : N.land x 255 = x mod 256.
Proof. exact (land_pow2_pred x 8). Qed.
Lemma u8_land_255 x : u8 (N.land x 255) = x mod 256.
Proof. rewrite land_255. unfold u8. apply N.mod_mod. discriminate. Qed.

Lemma from_raw_data k raw :
  m_data (from_raw k raw) = firstn (msize k) [raw mod 256; (raw / 256) mod 256; (raw / 65536) mod 256].
Proof.
  unfold from_raw. rewrite !u8_land_255, !N.shiftr_div_pow2.
  change (2 ^ 8) with 256. change (2 ^ 16) with 65536. destruct k; reflexivity.
Qed.

Lemma msize_wire e : length (wire e) = msize (m_kind (construct e)).
Proof. destruct e; reflexivity. Qed.

Lemma from_raw_carries e raw : legal e -> carries raw (wire e) ->
  from_raw (m_kind (construct e)) raw = construct e.
Proof.
  intros L [_ C]. transitivity (mkMsg (m_kind (construct e)) (m_data (construct e))); [|symmetry; apply mkMsg_eta].
  rewrite (mkMsg_eta (from_raw _ raw)). rewrite from_raw_data, (construct_wire e L). f_equal.
  pose proof (msize_wire e) as S. rewrite <- S.
  assert (C0 : forall b, nth_error (wire e) 0 = Some b -> raw mod 256 = b).
  { intros b H. specialize (C _ _ H). change (256 ^ N.of_nat 0) with 1 in C. rewrite N.div_1_r in C. exact C. }
  assert (C1 : forall b, nth_error (wire e) 1 = Some b -> (raw / 256) mod 256 = b).
  { intros b H. exact (C _ _ H). }
  assert (C2 : forall b, nth_error (wire e) 2 = Some b -> (raw / 65536) mod 256 = b).
  { intros b H. exact (C _ _ H). }
  destruct e; cbn [wire length firstn] in *;
   rewrite ?(C0 _ eq_refl), ?(C1 _ eq_refl), ?(C2 _ eq_refl); reflexivity.
Qed.

Lemma land_240 raw : N.land raw 240 = (raw mod 256) / 16 * 16.
Proof.
  rewrite <- land_255.
  replace (N.land raw 240) with (N.land (N.land raw 255) 240).
  2:{ rewrite <- N.land_assoc. reflexivity. }
  assert (H : N.land raw 255 < 256) by (rewrite land_255; apply N.mod_lt; discriminate).
  apply N.eqb_eq. revert H. generalize (N.land raw 255).
  refine (below_forallb _ 256 _). vm_compute; reflexivity.
Qed.


Lemma dispatch_nibble raw t :
  dispatch raw t =
  match nth_error (map Some (repeat Knote_off 0) ++ repeat None 8 ++ map Some voice_kinds ++ [None]) (N.to_nat (raw mod 256 / 16)) with
  | Some (Some k) => [(from_raw k raw, t)]
  | _ => []
  end.
Proof.
  unfold dispatch. rewrite land_240.
  assert (H : raw mod 256 / 16 < 16) by lia.
  generalize dependent (raw mod 256 / 16). intros q Hq.
  generalize (fun k => from_raw k raw). intros f.
  assert (q = 0 \/ q = 1 \/ q = 2 \/ q = 3 \/ q = 4 \/ q = 5 \/ q = 6 \/ q = 7 \/ q = 8 \/ q = 9
    \/ q = 10 \/ q = 11 \/ q = 12 \/ q = 13 \/ q = 14 \/ q = 15) as E by lia.
  repeat (destruct E as [->|E]; [reflexivity|]). subst; reflexivity.
Qed.

Lemma dispatch_voice e raw t : legal e -> is_voice e = true -> carries raw (wire e) ->
  dispatch raw t = [(construct e, t)].
Proof.
  intros L V C. rewrite <- (from_raw_carries e raw L C). rewrite dispatch_nibble.
  destruct C as [_ C]. pose proof (C 0%nat) as C0. change (256 ^ N.of_nat 0) with 1 in C0. rewrite N.div_1_r in C0.
  destruct e; try discriminate V; cbn in L; repeat match goal with H : _ /\ _ |- _ => destruct H end;
   rewrite (C0 _ eq_refl);
   match goal with |- context [(?s + ?c) / 16] =>
     replace ((s + c) / 16) with (s / 16) by (clear - H; lia) end; reflexivity.
Qed.

Lemma dispatch_other raw t : raw mod 256 < 128 \/ 240 <= raw mod 256 -> dispatch raw t = [].
Proof.
  intros H. rewrite dispatch_nibble.
  assert (B : raw mod 256 < 256) by lia.
  assert (E : raw mod 256 / 16 = 0 \/ raw mod 256 / 16 = 1 \/ raw mod 256 / 16 = 2 \/ raw mod 256 / 16 = 3
   \/ raw mod 256 / 16 = 4 \/ raw mod 256 / 16 = 5 \/ raw mod 256 / 16 = 6 \/ raw mod 256 / 16 = 7 \/ raw mod 256 / 16 = 15) by (clear - H B; lia).
  repeat (destruct E as [->|E]; [reflexivity|]). rewrite E; reflexivity.
Qed.

Lemma dispatch_any raw t : 128 <= raw mod 256 < 240 ->
  exists k, nth_error voice_kinds (N.to_nat (raw mod 256 / 16 - 8)) = Some k /\
    dispatch raw t = [(mkMsg k (firstn (msize k) [raw mod 256; (raw / 256) mod 256; (raw / 65536) mod 256]), t)].
Proof.
  intros H. rewrite dispatch_nibble.
  assert (E : raw mod 256 / 16 = 8 \/ raw mod 256 / 16 = 9 \/ raw mod 256 / 16 = 10 \/ raw mod 256 / 16 = 11
   \/ raw mod 256 / 16 = 12 \/ raw mod 256 / 16 = 13 \/ raw mod 256 / 16 = 14) by (clear - H; lia).
  assert (F : forall k, from_raw k raw = mkMsg k (firstn (msize k) [raw mod 256; (raw / 256) mod 256; (raw / 65536) mod 256])).
  { intros k. rewrite (mkMsg_eta (from_raw k raw)), from_raw_data. reflexivity. }
  repeat (destruct E as [->|E]; [eexists; split; [reflexivity|]; rewrite <- F; reflexivity|]).
  rewrite E. eexists; split; [reflexivity|]; rewrite <- F; reflexivity.
Qed.

Lemma two_byte_ctors c lsb msb : c < 16 -> lsb < 128 -> msb < 128 ->
  pitch_bend2 c lsb msb = construct (PitchBend c (lsb + 128 * msb)) /\
  song_position2 lsb msb = construct (SongPosition (lsb + 128 * msb)).
Proof.
  intros Hc Hl Hm. unfold pitch_bend2, song_position2. cbn [construct]. unfold pitch_bend, song_position.
  rewrite land_127, shr7.
  replace ((lsb + 128 * msb) mod 128) with lsb by lia.
  replace ((lsb + 128 * msb) / 128) with msb by lia. split; reflexivity.
Qed.

Lemma process_n_spec n : forall q,
  process_n true n q = (skipn n q, concat (map (fun e => dispatch (fst e mod 2 ^ 32) (snd e)) (firstn n q))).
Proof.
  induction n as [|n IH]; intros q; [reflexivity|].
  cbn [process_n]. destruct q as [|[r t] q]; cbn [process].
  - rewrite IH. destruct n; reflexivity.
  - rewrite IH. reflexivity.
Qed.

Open Scope string_scope. Open Scope N_scope.
Lemma letter_base c st : letter_semitone c = Some st ->
  exists u b, toupper c = Some u /\ base_note u = Some b /\ Z.of_N b = (12 + st)%Z /\ (b = 12 \/ 13 < b < 24).
Proof.
  destruct c as [[|] [|] [|] [|] [|] [|] [|] [|]]; intros H; try discriminate H;
  injection H as <-; eexists; eexists;
  (split; [vm_compute; reflexivity|]); (split; [vm_compute; reflexivity|]); (split; [reflexivity|lia]).
Qed.

Lemma acc_cases (c : ascii) (A : Type) (x y z : A) :
  match c with "#"%char => x | "b"%char => y | _ => z end =
  if ascii_dec c "#" then x else if ascii_dec c "b" then y else z.
Proof. destruct c as [[|] [|] [|] [|] [|] [|] [|] [|]]; reflexivity. Qed.

Lemma note_number_cons c u c2 s2 : toupper c = Some u ->
  note_number (String c (String c2 s2)) =
  if ascii_dec c2 "#" then bind (base_note u) (fun v => nn_octave (Some (u8 (v + 1))) s2)
  else if ascii_dec c2 "b" then bind (base_note u) (fun v => nn_octave (Some (u8 (v + 255))) s2)
  else nn_octave (base_note u) (String c2 s2).
Proof.
  intros H. unfold note_number. rewrite H. cbn [bind]. apply acc_cases.
Qed.

Lemma digit_char c : (if (48 <=? N_of_ascii c) && (N_of_ascii c <=? 57) then true else false) = true ->
  exists d, (d <= 9)%nat /\ String c "" = digit d /\ Z.of_N (N_of_ascii c) = (48 + Z.of_nat d)%Z.
Proof.
  intros H. destruct ((48 <=? N_of_ascii c) && (N_of_ascii c <=? 57)) eqn:E; [|discriminate].
  exists (N.to_nat (N_of_ascii c - 48)). split; [lia|]. split; [|lia].
  unfold digit. f_equal. rewrite <- (ascii_N_embedding c) at 1. unfold ascii_of_nat. f_equal. lia.
Qed.

Lemma isdigit_digit d : (d <= 9)%nat -> exists c, digit d = String c "" /\ isdigit c = Some true /\
  Z.of_N (N_of_ascii c) = (48 + Z.of_nat d)%Z /\ c <> "#"%char /\ c <> "b"%char.
Proof.
  intros H. do 10 (destruct d as [|d]; [eexists; split; [reflexivity|]; split; [reflexivity|]; split; [reflexivity|]; split; discriminate|]).
  lia.
Qed.

Lemma nn_octave_spec n s : all_ascii7 s ->
  (exists d, (d <= 9)%nat /\ s = digit d /\ nn_octave (Some n) s = Some (Z.of_N n + Z.of_nat d * 12)%Z) \/
  ((forall d, (d <= 9)%nat -> s <> digit d) /\ nn_octave (Some n) s = Some (-1)%Z).
Proof.
  intros A. destruct s as [|c s].
  - right. split; [intros d _; discriminate|reflexivity].
  - cbn [all_ascii7] in A. destruct A as [A As]. unfold ascii7 in A.
    cbn [nn_octave]. unfold isdigit. destruct (N.leb_spec 128 (N_of_ascii c)); [lia|]. cbn [bind].
    destruct ((48 <=? N_of_ascii c) && (N_of_ascii c <=? 57)) eqn:E.
    + destruct (digit_char c) as (d & D1 & D2 & D3); [rewrite E; reflexivity|].
      destruct s as [|c2 s].
      * left. exists d. split; [exact D1|]. split; [exact D2|]. cbn [bind]. f_equal. lia.
      * right. split; [|reflexivity]. intros d' _ Q. discriminate Q.
    + right. split; [|reflexivity]. intros d Hd Q.
      destruct (isdigit_digit d Hd) as (c' & Q1 & Q2 & _). rewrite Q1 in Q. injection Q as -> ->.
      unfold isdigit in Q2. destruct (N.leb_spec 128 (N_of_ascii c')); [lia|]. congruence.
Qed.

Lemma note_number_spec s c t : s = String c t -> letter_semitone c <> None -> all_ascii7 s ->
  (exists k, names s k /\ note_number s = Some k) \/
  ((forall k, ~ names s k) /\ note_number s = Some (-1)%Z).
Proof.
  intros -> Hc A. destruct (letter_semitone c) as [st|] eqn:Ec; [clear Hc|congruence].
  destruct (letter_base c st Ec) as (u & b & Hu & Hb & Hst & Hr).
  assert (NI : forall k, names (String c t) k -> exists acc a d, (d <= 9)%nat /\
     (acc = "" /\ a = 0%Z \/ acc = "#" /\ a = 1%Z \/ acc = "b" /\ a = (-1)%Z) /\ t = (acc ++ digit d)%string).
  { intros k (c' & st' & acc & a & d & L1 & L2 & L3 & L4 & L5). injection L4 as -> ->. eauto 10. }
  cbn [all_ascii7] in A. destruct A as [_ A].
  destruct t as [|c2 t].
  - right. split.
    + intros k K. destruct (NI k K) as (acc & a & d & Hd & [(-> & _)|[(-> & _)|(-> & _)]] & Q); discriminate Q.
    + unfold note_number. rewrite Hu. reflexivity.
  - rewrite (note_number_cons c u c2 t Hu), Hb. cbn [bind].
    pose proof A as A2. cbn [all_ascii7] in A2. destruct A2 as [_ A2].
    destruct (ascii_dec c2 "#") as [->|N1]; [|destruct (ascii_dec c2 "b") as [->|N2]].
    + destruct (nn_octave_spec (u8 (b + 1)) t A2) as [(d & D1 & D2 & D3)|(D1 & D2)].
      * left. eexists. split; [|exact D3]. exists c, st, "#", 1%Z, d. subst t.
        rewrite u8_small by lia. repeat split; auto. lia.
      * right. split; [|exact D2]. intros k K.
        destruct (NI k K) as (acc & a & d & Hd & [(-> & _)|[(-> & _)|(-> & _)]] & Q); try discriminate Q.
        { destruct (isdigit_digit d Hd) as (c' & Q1 & _ & _ & Q2 & _). change ("" ++ digit d)%string with (digit d) in Q. rewrite Q1 in Q. congruence. }
        { injection Q as Q. exact (D1 d Hd Q). }
    + destruct (nn_octave_spec (u8 (b + 255)) t A2) as [(d & D1 & D2 & D3)|(D1 & D2)].
      * left. eexists. split; [|exact D3]. exists c, st, "b", (-1)%Z, d. subst t.
        assert (u8 (b + 255) = b - 1) as ->. { unfold u8. clear - Hr. lia. }
        repeat split; auto. lia.
      * right. split; [|exact D2]. intros k K.
        destruct (NI k K) as (acc & a & d & Hd & [(-> & _)|[(-> & _)|(-> & _)]] & Q); try discriminate Q.
        { destruct (isdigit_digit d Hd) as (c' & Q1 & _ & _ & _ & Q2). change ("" ++ digit d)%string with (digit d) in Q. rewrite Q1 in Q. congruence. }
        { injection Q as Q. exact (D1 d Hd Q). }
    + destruct (nn_octave_spec b (String c2 t) A) as [(d & D1 & D2 & D3)|(D1 & D2)].
      * left. eexists. split; [|exact D3]. exists c, st, "", 0%Z, d.
        repeat split; auto; [rewrite D2; reflexivity | lia].
      * right. split; [|exact D2]. intros k K.
        destruct (NI k K) as (acc & a & d & Hd & [(-> & _)|[(-> & _)|(-> & _)]] & Q).
        { exact (D1 d Hd Q). }
        { cbn in Q. congruence. }
        { cbn in Q. congruence. }
Qed.

Definition note_rt (k : N) : bool :=
  match note_number (note_name k) with
  | Some z => if k <? 12 then (z =? -1)%Z else (z =? Z.of_N k)%Z
  | None => false
  end.
Lemma note_roundtrip k : k < 128 ->
  note_number (note_name k) = Some (if k <? 12 then (-1)%Z else Z.of_N k).
Proof.
  intros H. assert (R : note_rt k = true).
  { revert k H. refine (below_forallb _ 128 _). vm_compute. reflexivity. }
  unfold note_rt in R. destruct (note_number (note_name k)) as [z|]; [|discriminate].
  destruct (k <? 12); apply Z.eqb_eq in R; congruence.
Qed.

Lemma note_names_inj a b : a < 128 -> b < 128 -> note_name a = note_name b -> a = b.
Proof.
  intros Ha Hb E.
  assert (R : forall x, x < 128 -> forallb (fun y => implb (String.eqb (note_name x) (note_name y)) (x =? y)) (List.map N.of_nat (seq 0 128)) = true).
  { refine (below_forallb _ 128 _). vm_compute. reflexivity. }
  pose proof (below_forallb _ 128 (R a Ha) b Hb) as Q. cbv beta in Q.
  rewrite E, String.eqb_refl in Q. cbn in Q. apply N.eqb_eq in Q. exact Q.
Qed.

Lemma enum_agrees n v : List.In (n, v) note_values -> note_number (enum_string n) = Some (Z.of_N v).
Proof.
  intros H.
  assert (R : forallb (fun p => match note_number (enum_string (fst p)) with Some z => Z.eqb z (Z.of_N (snd p)) | None => false end) note_values = true).
  { vm_compute. reflexivity. }
  rewrite forallb_forall in R. specialize (R _ H). cbn [fst snd] in R.
  destruct (note_number (enum_string n)); [|discriminate]. apply Z.eqb_eq in R. congruence.
Qed.

Fixpoint asciib (s : string) : bool :=
  match s with EmptyString => true | String c t => (N_of_ascii c <? 128) && asciib t end.
Lemma asciib_ok s : asciib s = true -> all_ascii7 s.
Proof.
  induction s as [|a s IH]; cbn [asciib all_ascii7]; intros H; [exact I|].
  apply andb_prop in H. destruct H as [Ha Hs]. split; [|exact (IH Hs)]. unfold ascii7. apply N.ltb_lt. exact Ha.
Qed.
Lemma note_name_names k : 12 <= k -> k < 128 -> names (note_name k) (Z.of_N k).
Proof.
  intros H1 H2.
  assert (A : exists c t, note_name k = String c t /\ letter_semitone c <> None /\ all_ascii7 (note_name k)).
  { assert (R : forall x, x < 128 -> match note_name x with String c t => match letter_semitone c with Some _ => true | None => false end | _ => false end &&
       asciib (note_name x) = true).
    { refine (below_forallb _ 128 _). vm_compute. reflexivity. }
    specialize (R k H2). apply andb_prop in R. destruct R as [R1 R2].
    destruct (note_name k) as [|c t] eqn:E; [discriminate|]. exists c, t.
    split; [reflexivity|]. split; [destruct (letter_semitone c); congruence|].
    exact (asciib_ok _ R2). }
  destruct A as (c & t & E & L & A).
  pose proof (note_roundtrip k H2) as R. destruct (N.ltb_spec k 12) as [H|_]; [lia|].
  destruct (note_number_spec (note_name k) c t E L A) as [(z & Hz & Hn)|(_ & Hn)].
  - rewrite R in Hn. injection Hn as <-. exact Hz.
  - rewrite R in Hn. injection Hn as Hn. lia.
Qed.
