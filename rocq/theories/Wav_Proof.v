(** Proofs for C51, C52. *)
From Verif Require Import Common Wav_Model Wav_Spec.
Local Open Scope N_scope.

(** ** lists indexed by N *)
Lemma lenN_app {A} (a b : list A) : lenN (a ++ b) = lenN a + lenN b.
Proof. unfold lenN. rewrite app_length. lia. Qed.
Lemma lenN_nil {A} : lenN (@nil A) = 0. Proof. reflexivity. Qed.
Lemma lenN_cons {A} (x : A) l : lenN (x :: l) = 1 + lenN l.
Proof. unfold lenN. cbn [length]. lia. Qed.
Lemma takeN_app {A} (a b : list A) : takeN (lenN a) (a ++ b) = a.
Proof. unfold takeN, lenN. rewrite Nat2N.id, firstn_app, firstn_all, Nat.sub_diag. cbn. apply app_nil_r. Qed.
Lemma dropN_app {A} (a b : list A) : dropN (lenN a) (a ++ b) = b.
Proof. unfold dropN, lenN. rewrite Nat2N.id, skipn_app, skipn_all, Nat.sub_diag. reflexivity. Qed.
Lemma takeN_exact {A} n (a b : list A) : n = lenN a -> takeN n (a ++ b) = a.
Proof. intros ->. apply takeN_app. Qed.
Lemma dropN_exact {A} n (a b : list A) : n = lenN a -> dropN n (a ++ b) = b.
Proof. intros ->. apply dropN_app. Qed.
Lemma takeN_all {A} n (a : list A) : lenN a <= n -> takeN n a = a.
Proof. intros H. unfold takeN. apply firstn_all2. unfold lenN in H. lia. Qed.
Lemma takeN_0 {A} (a : list A) : takeN 0 a = []. Proof. reflexivity. Qed.
Lemma dropN_0 {A} (a : list A) : dropN 0 a = a. Proof. reflexivity. Qed.
Lemma skipn_plus {A} n m (l : list A) : skipn (n + m) l = skipn m (skipn n l).
Proof. revert l. induction n as [|n IH]; intros l; [reflexivity|]. destruct l; [now rewrite !skipn_nil|]. apply IH. Qed.
Lemma dropN_plus {A} n m (l : list A) : dropN (n + m) l = dropN m (dropN n l).
Proof. unfold dropN. rewrite N2Nat.inj_add. apply skipn_plus. Qed.
Lemma lenN_takeN {A} n (l : list A) : lenN (takeN n l) = N.min n (lenN l).
Proof. unfold lenN, takeN. rewrite firstn_length. lia. Qed.
Lemma lenN_dropN {A} n (l : list A) : lenN (dropN n l) = lenN l - n.
Proof. unfold lenN, dropN. rewrite skipn_length. lia. Qed.
Lemma takeN_dropN {A} n (l : list A) : takeN n l ++ dropN n l = l.
Proof. apply firstn_skipn. Qed.
Lemma takeN_app_le {A} n (a b : list A) : n <= lenN a -> takeN n (a ++ b) = takeN n a.
Proof.
  intros H. unfold takeN. rewrite firstn_app. unfold lenN in H.
  replace (N.to_nat n - length a)%nat with 0%nat by lia. cbn. apply app_nil_r.
Qed.
Lemma dropN_app_le {A} n (a b : list A) : n <= lenN a -> dropN n (a ++ b) = dropN n a ++ b.
Proof.
  intros H. unfold dropN. rewrite skipn_app. unfold lenN in H.
  replace (N.to_nat n - length a)%nat with 0%nat by lia. reflexivity.
Qed.
Lemma lenN_map {A B} (f : A -> B) l : lenN (map f l) = lenN l.
Proof. unfold lenN. now rewrite map_length. Qed.

(** ** little-endian numbers *)
Lemma le_length k x : length (le k x) = k.
Proof. revert x. induction k as [|k IH]; intros x; cbn; [reflexivity|]. now rewrite IH. Qed.
Lemma lenN_le k x : lenN (le k x) = N.of_nat k.
Proof. unfold lenN. now rewrite le_length. Qed.
Lemma unle_le k : forall x, unle (le k x) = x mod 256 ^ N.of_nat k.
Proof.
  induction k as [|k IH]; intros x; cbn [le unle].
  - rewrite N.pow_0_r, N.mod_1_r. reflexivity.
  - rewrite IH, Nat2N.inj_succ, N.pow_succ_r by lia.
    rewrite N.mod_mul_r by (try apply N.pow_nonzero; lia). reflexivity.
Qed.
Lemma unle_le4 x : x < 2 ^ 32 -> unle (le 4 x) = x.
Proof. intros H. rewrite unle_le. change (256 ^ N.of_nat 4) with (2 ^ 32). apply N.mod_small, H. Qed.
Lemma unle_le2 x : x < 2 ^ 16 -> unle (le 2 x) = x.
Proof. intros H. rewrite unle_le. change (256 ^ N.of_nat 2) with (2 ^ 16). apply N.mod_small, H. Qed.

Lemma bytes_eqb_refl l : bytes_eqb l l = true.
Proof. induction l as [|x l IH]; cbn; [reflexivity|]. now rewrite N.eqb_refl, IH. Qed.
Lemma bytes_eqb_eq a : forall b, bytes_eqb a b = true -> a = b.
Proof.
  induction a as [|x a IH]; intros [|y b]; cbn; try discriminate; [reflexivity|].
  intros H. apply andb_true_iff in H as [H1 H2]. apply N.eqb_eq in H1. f_equal; auto.
Qed.
Lemma bytes_eqb_neq a b : a <> b -> bytes_eqb a b = false.
Proof. intros H. destruct (bytes_eqb a b) eqn:E; [|reflexivity]. now apply bytes_eqb_eq in E. Qed.

Lemma wrap64_id x : x < 2 ^ 64 -> wrap64 x = x.
Proof. intros H. unfold wrap64. apply N.mod_small. exact H. Qed.
Lemma sub64_id a b : b <= a -> a < 2 ^ 64 -> sub64 a b = a - b.
Proof.
  intros H1 H2. unfold sub64. change W64 with (2 ^ 64). rewrite (wrap64_id b) by lia.
  unfold wrap64. change W64 with (2 ^ 64).
  replace (a + (2 ^ 64 - b)) with (a - b + 1 * 2 ^ 64) by lia.
  rewrite N.mod_add by lia. apply N.mod_small. lia.
Qed.

(** ** samples in memory *)
Lemma lenN_samples l : lenN (samples_bytes l) = 4 * lenN l.
Proof.
  induction l as [|x l IH]; [reflexivity|]. unfold samples_bytes in *. cbn [flat_map].
  rewrite lenN_app, lenN_le, lenN_cons, IH. lia.
Qed.
Lemma samples_app a b : samples_bytes (a ++ b) = samples_bytes a ++ samples_bytes b.
Proof. apply flat_map_app. Qed.
Lemma bytes_samples_ok l : Forall is_sample l -> forall rest, lenN rest < 4 ->
  bytes_samples (samples_bytes l ++ rest) = l.
Proof.
  induction 1 as [|x l Hx Hl IH]; intros rest Hr.
  - cbn. destruct rest as [|a [|b [|c [|d t]]]]; cbn; try reflexivity. unfold lenN in Hr. cbn in Hr. lia.
  - unfold samples_bytes. cbn [flat_map]. fold (samples_bytes l).
    cbn [le app bytes_samples]. f_equal; [|apply IH, Hr].
    exact (unle_le4 x Hx).
Qed.
Lemma takeN_samples k l : takeN (4 * k) (samples_bytes l) = samples_bytes (takeN k l).
Proof.
  destruct (N.leb_spec (lenN l) k) as [H|H].
  - rewrite !takeN_all; [reflexivity|exact H|rewrite lenN_samples; lia].
  - rewrite <- (takeN_dropN k l) at 1. rewrite samples_app. apply takeN_exact.
    rewrite lenN_samples, lenN_takeN. lia.
Qed.
Lemma dropN_samples k l : dropN (4 * k) (samples_bytes l) = samples_bytes (dropN k l).
Proof.
  destruct (N.leb_spec (lenN l) k) as [H|H].
  - assert (E1 : dropN k l = []) by (unfold dropN; apply skipn_all2; unfold lenN in H; lia).
    rewrite E1. unfold dropN. apply skipn_all2. pose proof (lenN_samples l) as E. unfold lenN in *. lia.
  - rewrite <- (takeN_dropN k l) at 1. rewrite samples_app. apply dropN_exact.
    rewrite lenN_samples, lenN_takeN. lia.
Qed.

(** ** reading at a known place *)
Lemma fread_at B q x rest n : dropN q B = x ++ rest -> n = lenN x ->
  fread_exactly (File B q) n = Some (x, File B (q + n)) /\ dropN (q + n) B = rest.
Proof.
  intros H ->. unfold fread_exactly, fread. cbn [f_pos f_bytes]. rewrite H, takeN_app, N.eqb_refl.
  split; [reflexivity|]. rewrite dropN_plus, H. apply dropN_app.
Qed.

Lemma chunk_header_at B q id s rest :
  dropN q B = id ++ le 4 s ++ rest -> length id = 4%nat -> s < 2 ^ 32 ->
  chunk_header (File B q) = Some (id, s, s mod 2, File B (q + 8)) /\ dropN (q + 8) B = rest.
Proof.
  intros H Hi Hs. unfold chunk_header.
  destruct (fread_at B q id (le 4 s ++ rest) 4 H) as [E1 D1]; [unfold lenN; lia|].
  rewrite E1. cbn [bind snd fst].
  destruct (fread_at B (q + 4) (le 4 s) rest 4 D1) as [E2 D2]; [now rewrite lenN_le|].
  rewrite E2. cbn [bind snd fst]. rewrite unle_le4 by exact Hs.
  replace (q + 4 + 4) with (q + 8) in * by lia. auto.
Qed.

Lemma lenN_repeat {A} (x : A) n : lenN (repeat x n) = N.of_nat n.
Proof. unfold lenN. now rewrite repeat_length. Qed.
Lemma chunk_len c : length (fst c) = 4%nat -> lenN (chunk c) = 8 + lenN (snd c) + lenN (snd c) mod 2.
Proof.
  intros H. unfold chunk. rewrite !lenN_app, lenN_le, lenN_repeat.
  assert (lenN (fst c) = 4) by (unfold lenN; lia). lia.
Qed.
Lemma chunks_len cs : Forall (fun c => length (fst c) = 4%nat) cs ->
  (length cs <= length (concat (map chunk cs)))%nat.
Proof.
  induction 1 as [|c cs Hc Hcs IH]; cbn; [lia|]. rewrite app_length.
  pose proof (chunk_len c Hc) as L. unfold lenN in L. lia.
Qed.

(** skipping the chunk at [q] *)
Lemma skip_chunk B q c rest :
  length (fst c) = 4%nat -> lenN (snd c) < 2 ^ 32 -> dropN q B = chunk c ++ rest ->
  chunk_header (File B q) = Some (fst c, lenN (snd c), lenN (snd c) mod 2, File B (q + 8)) /\
  dropN (q + 8) B = snd c ++ repeat 0 (N.to_nat (lenN (snd c) mod 2)) ++ rest /\
  dropN (q + 8 + (lenN (snd c) + lenN (snd c) mod 2)) B = rest.
Proof.
  intros H1 H2 H. unfold chunk in H. rewrite <- !app_assoc in H.
  destruct (chunk_header_at B q _ _ _ H H1 H2) as [E D].
  split; [exact E|]. split; [exact D|].
  rewrite dropN_plus, D. rewrite app_assoc. apply dropN_exact.
  rewrite lenN_app, lenN_repeat. lia.
Qed.

Lemma find_fmt_skips pre : forall fuel B q rest,
  Forall extra_chunk pre -> (length pre < fuel)%nat -> lenN B < 2 ^ 63 -> q <= lenN B ->
  dropN q B = concat (map chunk pre) ++ rest ->
  find_fmt fuel (File B q) q =
  find_fmt (fuel - length pre) (File B (q + lenN (concat (map chunk pre)))) (q + lenN (concat (map chunk pre))).
Proof.
  induction pre as [|c pre IH]; intros fuel B q rest HF Hf HB Hq H.
  - cbn. rewrite Nat.sub_0_r. unfold lenN at 1 2. cbn. rewrite N.add_0_r. reflexivity.
  - inversion HF as [|c' pre' (C1 & C2 & C3 & C4 & C5) Hpre]; subst.
    cbn [map concat] in *. rewrite <- app_assoc in H.
    destruct (skip_chunk B q c _ C1 C2 H) as (E & _ & D).
    destruct fuel as [|fuel]; [cbn in Hf; lia|]. cbn [find_fmt]. rewrite E.
    rewrite bytes_eqb_neq by exact C3.
    assert (L : lenN (dropN q B) = lenN B - q) by apply lenN_dropN.
    rewrite H, !lenN_app, (chunk_len c C1) in L.
    unfold seek_forward. cbn [f_bytes f_pos].
    rewrite (wrap64_id (q + 8)) by lia. rewrite wrap64_id by lia.
    replace (q + 8 + lenN (snd c) + lenN (snd c) mod 2) with (q + 8 + (lenN (snd c) + lenN (snd c) mod 2)) by lia.
    rewrite (IH fuel B _ rest Hpre); [|cbn in Hf; lia|exact HB|lia|exact D].
    rewrite lenN_app, (chunk_len c C1). cbn [length].
    replace (q + 8 + (lenN (snd c) + lenN (snd c) mod 2) + lenN (concat (map chunk pre)))
      with (q + (8 + lenN (snd c) + lenN (snd c) mod 2 + lenN (concat (map chunk pre)))) by lia.
    reflexivity.
Qed.

Lemma find_data_skips mid : forall fuel B q rest,
  Forall extra_chunk mid -> (length mid < fuel)%nat -> lenN B < 2 ^ 63 -> q <= lenN B ->
  dropN q B = concat (map chunk mid) ++ rest ->
  find_data fuel (File B q) q =
  find_data (fuel - length mid) (File B (q + lenN (concat (map chunk mid)))) (q + lenN (concat (map chunk mid))).
Proof.
  induction mid as [|c mid IH]; intros fuel B q rest HF Hf HB Hq H.
  - cbn. rewrite Nat.sub_0_r. unfold lenN at 1 2. cbn. rewrite N.add_0_r. reflexivity.
  - inversion HF as [|c' mid' (C1 & C2 & C3 & C4 & C5) Hmid]; subst.
    cbn [map concat] in *. rewrite <- app_assoc in H.
    destruct (skip_chunk B q c _ C1 C2 H) as (E & D0 & D).
    destruct fuel as [|fuel]; [cbn in Hf; lia|]. cbn [find_data]. rewrite E.
    rewrite bytes_eqb_neq by exact C4.
    assert (L : lenN (dropN q B) = lenN B - q) by apply lenN_dropN.
    rewrite H, !lenN_app, (chunk_len c C1) in L.
    assert (R : forall q', q' = q + 8 + (lenN (snd c) + lenN (snd c) mod 2) ->
      find_data fuel (File B q') q' = find_data (S fuel - length (c :: mid))
        (File B (q + lenN (chunk c ++ concat (map chunk mid)))) (q + lenN (chunk c ++ concat (map chunk mid)))).
    { intros q' ->. rewrite (IH fuel B _ rest Hmid); [|cbn in Hf; lia|exact HB|lia|exact D].
      rewrite lenN_app, (chunk_len c C1). cbn [length].
      replace (q + 8 + (lenN (snd c) + lenN (snd c) mod 2) + lenN (concat (map chunk mid)))
        with (q + (8 + lenN (snd c) + lenN (snd c) mod 2 + lenN (concat (map chunk mid)))) by lia.
      reflexivity. }
    rewrite (wrap64_id (q + 8)) by lia.
    destruct (bytes_eqb (fst c) fact_id) eqn:Ef.
    + apply bytes_eqb_eq in Ef. specialize (C5 Ef).
      assert (D4 : dropN (q + 8) B = takeN 4 (snd c) ++ (dropN 4 (snd c) ++ repeat 0 (N.to_nat (lenN (snd c) mod 2)) ++ concat (map chunk mid) ++ rest)).
      { rewrite app_assoc, takeN_dropN. exact D0. }
      destruct (fread_at B (q + 8) _ _ 4 D4) as [E4 _]; [rewrite lenN_takeN; lia|].
      rewrite E4. unfold seek_forward. cbn [f_bytes f_pos].
      rewrite (sub64_id (lenN (snd c)) 4) by lia.
      rewrite (wrap64_id (lenN (snd c) - 4 + lenN (snd c) mod 2)) by lia.
      rewrite (wrap64_id (q + 8 + 4)) by lia. rewrite wrap64_id by lia.
      replace (q + 8 + 4 + (lenN (snd c) - 4 + lenN (snd c) mod 2))
        with (q + 8 + (lenN (snd c) + lenN (snd c) mod 2)) by lia.
      apply R. reflexivity.
    + unfold seek_forward. cbn [f_bytes f_pos]. rewrite wrap64_id by lia.
      replace (q + 8 + lenN (snd c) + lenN (snd c) mod 2) with (q + 8 + (lenN (snd c) + lenN (snd c) mod 2)) by lia.
      apply R. reflexivity.
Qed.

(** ** the format chunk *)
Lemma lenN_float_format c s b : lenN (float_format c s b) = 16.
Proof. unfold float_format. rewrite !lenN_app, !lenN_le. reflexivity. Qed.
Lemma int_of_id x : x < 2 ^ 31 -> int_of x = Z.of_N x.
Proof.
  intros H. unfold int_of. change (2 ^ 31) with 2147483648 in H. change (2 ^ 32) with 4294967296.
  rewrite N.mod_small by lia. change (2 ^ 31)%Z with 2147483648%Z.
  destruct (Z.ltb_spec (Z.of_N x) 2147483648); lia.
Qed.
Lemma fseek_cur_fwd B q off : fseek_cur (File B q) (Z.of_N off) = Some (File B (q + off)).
Proof.
  unfold fseek_cur, fseek_set. cbn [f_pos f_bytes].
  destruct (Z.ltb_spec (Z.of_N q + Z.of_N off) 0); [lia|].
  replace (Z.to_N (Z.of_N q + Z.of_N off)) with (q + off) by lia. reflexivity.
Qed.

Lemma field_at (a x b : list N) n k : n = lenN a -> k = lenN x -> takeN k (dropN n (a ++ x ++ b)) = x.
Proof. intros -> ->. rewrite dropN_app. apply takeN_app. Qed.

Lemma fmt_fields ch sps br : ch < 2 ^ 14 -> sps < 2 ^ 32 ->
  let b := float_format ch sps br in
  unle (takeN 2 b) = 3 /\ unle (takeN 2 (dropN 2 b)) = ch /\ unle (takeN 4 (dropN 4 b)) = sps /\
  unle (takeN 2 (dropN 12 b)) = 4 * ch /\ unle (takeN 2 (dropN 14 b)) = 32.
Proof.
  intros H1 H2. change (2 ^ 14) with 16384 in H1. cbn zeta. unfold float_format.
  split; [|split; [|split; [|split]]].
  - rewrite takeN_exact by reflexivity. reflexivity.
  - rewrite (field_at (le 2 3)) by (rewrite lenN_le; reflexivity).
    apply unle_le2. change (2 ^ 16) with 65536. lia.
  - rewrite (app_assoc (le 2 3)). rewrite (field_at (le 2 3 ++ le 2 ch)) by (rewrite ?lenN_app, ?lenN_le; reflexivity).
    apply unle_le4. exact H2.
  - rewrite (app_assoc (le 2 3)), (app_assoc (le 2 3 ++ le 2 ch)), (app_assoc ((le 2 3 ++ le 2 ch) ++ le 4 sps)).
    rewrite (field_at (((le 2 3 ++ le 2 ch) ++ le 4 sps) ++ le 4 br)) by (rewrite ?lenN_app, ?lenN_le; reflexivity).
    apply unle_le2. change (2 ^ 16) with 65536. lia.
  - rewrite (app_assoc (le 2 3)), (app_assoc (le 2 3 ++ le 2 ch)), (app_assoc ((le 2 3 ++ le 2 ch) ++ le 4 sps)),
      (app_assoc (((le 2 3 ++ le 2 ch) ++ le 4 sps) ++ le 4 br)).
    rewrite <- (app_nil_r (le 2 32)).
    rewrite (field_at ((((le 2 3 ++ le 2 ch) ++ le 4 sps) ++ le 4 br) ++ le 2 (4 * ch))) by (rewrite ?lenN_app, ?lenN_le; reflexivity).
    reflexivity.
Qed.

Lemma read_fmt_ok B q ch sps br tail rest :
  ch < 2 ^ 14 -> sps < 2 ^ 32 -> format_tail tail -> lenN B < 2 ^ 63 -> q <= lenN B ->
  let size := lenN (float_format ch sps br ++ tail) in
  dropN q B = float_format ch sps br ++ tail ++ repeat 0 (N.to_nat (size mod 2)) ++ rest ->
  read_fmt size (size mod 2) (File B q) q =
  Some (Fmt 3 ch sps (4 * ch) 32 0, File B (q + (size + size mod 2)), q + (size + size mod 2)).
Proof.
  intros Hc Hs Ht HB Hq size H.
  assert (L : lenN (dropN q B) = lenN B - q) by apply lenN_dropN.
  assert (Esz : size = 16 + lenN tail) by (unfold size; rewrite lenN_app, lenN_float_format; lia).
  clearbody size. rewrite H, !lenN_app, lenN_float_format, lenN_repeat in L.
  destruct (fread_at B q _ _ 16 H) as [E1 D1]; [now rewrite lenN_float_format|].
  destruct (fmt_fields ch sps br Hc Hs) as (F1 & F2 & F3 & F4 & F5).
  unfold read_fmt. rewrite E1. cbn [bind fst snd]. rewrite F1, F2, F3, F4, F5.
  rewrite (wrap64_id (q + 16)) by lia.
  assert (G : (if 16 <? size then
             do c <- fread_exactly (File B (q + 16)) 2;
             do x <- (if 0 <? unle (fst c) then
                        if 3 =? 65534 then
                          if negb (unle (fst c) =? 22) then None
                          else do g <- fread_exactly (snd c) 22;
                               Some (unle (takeN 2 (dropN 6 (fst g))), snd g, wrap64 (wrap64 (q + 16 + 2) + unle (fst c)))
                        else do g <- fseek_cur (snd c) (Z.of_N (unle (fst c)));
                             Some (0, g, wrap64 (wrap64 (q + 16 + 2) + unle (fst c)))
                      else Some (0, snd c, wrap64 (q + 16 + 2)));
             do g <- fseek_cur (snd (fst x)) (int_of (sub64 size (18 + unle (fst c))));
             Some (fst (fst x), g, wrap64 (snd x + sub64 size (18 + unle (fst c))))
           else Some (0, File B (q + 16), q + 16)) = Some (0, File B (q + size), q + size)).
  { destruct Ht as [-> | (ext & more & Et & He & Hl)].
    - rewrite lenN_nil in Esz. subst size. reflexivity.
    - assert (lt : lenN tail = 2 + lenN ext + lenN more) by (rewrite Et, !lenN_app, lenN_le; lia).
      change (2 ^ 16) with 65536 in He. change (2 ^ 30) with 1073741824 in Hl.
      destruct (N.ltb_spec 16 size); [|lia].
      rewrite Et in D1. rewrite <- app_assoc in D1.
      destruct (fread_at B (q + 16) _ _ 2 D1) as [E2 D2]; [now rewrite lenN_le|].
      rewrite E2. cbn [bind fst snd]. rewrite unle_le2 by (change (2 ^ 16) with 65536; lia).
      rewrite (wrap64_id (q + 16 + 2)) by lia.
      rewrite sub64_id by lia.
      rewrite int_of_id by (change (2 ^ 31) with 2147483648; lia).
      destruct (N.ltb_spec 0 (lenN ext)).
      + change (3 =? 65534) with false. cbn iota. rewrite fseek_cur_fwd. cbn [bind fst snd].
        rewrite fseek_cur_fwd. cbn [bind fst snd].
        rewrite (wrap64_id (q + 16 + 2 + lenN ext)) by lia. rewrite wrap64_id by lia.
        replace (q + 16 + 2 + lenN ext + (size - (18 + lenN ext))) with (q + size) by lia. reflexivity.
      + cbn [bind fst snd]. rewrite fseek_cur_fwd. cbn [bind fst snd]. rewrite wrap64_id by lia.
        replace (q + 16 + 2 + (size - (18 + lenN ext))) with (q + size) by lia. reflexivity. }
  rewrite G. cbn [bind fst snd].
  destruct (N.ltb_spec 0 (size mod 2)).
  - rewrite fseek_cur_fwd. cbn [bind fst snd]. rewrite wrap64_id by lia.
    replace (q + size + size mod 2) with (q + (size + size mod 2)) by lia. reflexivity.
  - cbn [bind fst snd]. replace (q + (size + size mod 2)) with (q + size) by lia. reflexivity.
Qed.

(** ** a reader over a recording *)
Definition rinv (r : reader) (ch sps : N) (samples : list N) (p : N) : Prop :=
  exists B dp rest,
    r = Reader (File B (dp + 4 * p)) 3 sps ch 4 (4 * (lenN samples - p)) (lenN samples) dp (4 * lenN samples) /\
    dropN dp B = samples_bytes samples ++ rest /\ p <= lenN samples /\
    dp < 2 ^ 31 /\ 4 * lenN samples < 2 ^ 32 /\ Forall is_sample samples.

(** a float RIFF file with any data size field and any bytes after it *)
Definition float_wav_raw (rs ch sps br : N) (tail : list N) (pre mid : list (list N * list N)) (d : N) (payload : list N) : list N :=
  riff_id ++ le 4 rs ++ wave_id ++ concat (map chunk pre)
  ++ chunk (fmt_id, float_format ch sps br ++ tail) ++ concat (map chunk mid)
  ++ data_id ++ le 4 d ++ payload.
Lemma open_gen rs ch sps br tail pre mid d payload :
  36 <= rs < 2 ^ 32 -> 1 <= ch < 2 ^ 14 -> 1 <= sps < 2 ^ 32 ->
  format_tail tail -> Forall extra_chunk pre -> Forall extra_chunk mid ->
  lenN (concat (map chunk pre)) + lenN tail + lenN (concat (map chunk mid)) < 2 ^ 30 ->
  d < 2 ^ 32 -> lenN payload < 2 ^ 62 ->
  exists B dp, wr_open (float_wav_raw rs ch sps br tail pre mid d payload)
      = Opened (Reader (File B dp) 3 sps ch 4 d (d / 4) dp d) /\
    dropN dp B = payload /\ dp < 2 ^ 31.
Proof.
  intros Hrs Hch Hsps Ht Hpre Hmid Hl Hn Haf.
  set (B := float_wav_raw rs ch sps br tail pre mid d payload).
  set (P := concat (map chunk pre)) in *. set (M := concat (map chunk mid)) in *.
  set (body := float_format ch sps br ++ tail).
  set (size := lenN body).
  assert (Esz : size = 16 + lenN tail) by (unfold size, body; rewrite lenN_app, lenN_float_format; lia).
  change (2 ^ 30) with 1073741824 in Hl. change (2 ^ 32) with 4294967296 in Hrs, Hsps, Hn.
  change (2 ^ 62) with 4611686018427387904 in Haf.
  assert (LB : lenN B = 12 + (lenN P + (8 + size + size mod 2 + (lenN M + (8 + (lenN payload)))))).
  { unfold B, float_wav_raw. rewrite !lenN_app, !lenN_le.
    rewrite chunk_len by reflexivity. cbn [snd]. fold body size P M.
    change (lenN riff_id) with 4. change (lenN wave_id) with 4. change (lenN data_id) with 4. lia. }
  assert (HB : lenN B < 2 ^ 63) by (change (2 ^ 63) with 9223372036854775808; lia).
  assert (D0 : dropN 0 B = riff_id ++ le 4 rs ++ wave_id ++ P ++ chunk (fmt_id, body) ++ M ++ data_id ++
                 le 4 (d) ++ payload) by reflexivity.
  assert (LBn : length B = N.to_nat (lenN B)) by (unfold lenN; lia).
  clearbody B.
  destruct (fread_at B 0 _ _ 4 D0) as [E1 D1]; [reflexivity|].
  destruct (fread_at B _ _ _ 4 D1) as [E2 D2]; [now rewrite lenN_le|].
  destruct (fread_at B _ _ _ 4 D2) as [E3 D3]; [reflexivity|].
  unfold wr_open. rewrite E1. cbn [negb]. rewrite bytes_eqb_refl. cbn [negb]. cbn iota.
  rewrite E2. rewrite unle_le4 by (change (2 ^ 32) with 4294967296; lia).
  destruct (N.ltb_spec rs 36); [lia|]. rewrite E3. rewrite bytes_eqb_refl. cbn [negb]. cbn iota.
  change (0 + 4 + 4 + 4) with 12 in *.
  rewrite find_fmt_skips with (pre := pre) (rest := chunk (fmt_id, body) ++ M ++ data_id ++
                 le 4 (d) ++ payload); [|exact Hpre| |exact HB|lia|exact D3].
  2:{ assert (Q : (length pre <= length P)%nat).
      { apply chunks_len. eapply Forall_impl; [|exact Hpre]. intros c (C & _). exact C. }
      unfold lenN in LB. lia. }
  fold P.
  assert (D4 : dropN (12 + lenN P) B = chunk (fmt_id, body) ++ M ++ data_id ++
                 le 4 (d) ++ payload)
    by (rewrite dropN_plus, D3; apply dropN_app).
  destruct (S (length B) - length pre)%nat as [|fuel] eqn:Ef.
  { assert (Q : (length pre <= length P)%nat).
    { apply chunks_len. eapply Forall_impl; [|exact Hpre]. intros c (C & _). exact C. }
    unfold lenN in LB. lia. }
  cbn [find_fmt].
  destruct (skip_chunk B (12 + lenN P) (fmt_id, body) _ eq_refl ltac:(cbn [snd]; fold size; change (2 ^ 32) with 4294967296; lia) D4)
    as (E5 & D5 & D6).
  cbn [fst snd] in E5, D5, D6. fold size in E5, D5, D6. rewrite E5, bytes_eqb_refl.
  change (2 ^ 63) with 9223372036854775808 in HB.
  rewrite (wrap64_id (12 + lenN P + 8)) by (change (2 ^ 64) with 18446744073709551616; lia).
  unfold body in D5. rewrite <- app_assoc in D5.
  assert (R := read_fmt_ok B (12 + lenN P + 8) ch sps br tail
     (M ++ data_id ++ le 4 (d) ++ payload)
     ltac:(lia) ltac:(change (2 ^ 32) with 4294967296; lia) Ht ltac:(change (2 ^ 63) with 9223372036854775808; lia) ltac:(lia)).
  cbn zeta in R. fold body size in R. specialize (R D5). rewrite R.
  cbn [m_rate m_ch m_bits m_align m_tag m_sub].
  destruct (N.eqb_spec sps 0); [lia|]. destruct (N.eqb_spec ch 0); [lia|].
  destruct (N.eqb_spec (4 * ch) 0); [lia|]. cbn [orb]. change (32 =? 0) with false. cbn [orb]. cbn iota.
  change (3 =? 65534) with false. cbn iota.
  set (q := 12 + lenN P + 8 + (size + size mod 2)) in *.
  rewrite find_data_skips with (mid := mid) (rest := data_id ++
                 le 4 (d) ++ payload);
    [|exact Hmid| |change (2 ^ 63) with 9223372036854775808; lia|unfold q; lia|exact D6].
  2:{ assert (Q : (length mid <= length M)%nat).
      { apply chunks_len. eapply Forall_impl; [|exact Hmid]. intros c (C & _). exact C. }
      unfold lenN in LB. lia. }
  fold M.
  assert (D7 : dropN (q + lenN M) B = data_id ++ le 4 (d) ++ payload)
    by (rewrite dropN_plus, D6; apply dropN_app).
  destruct (S (length B) - length mid)%nat as [|fuel2] eqn:Ef2.
  { assert (Q : (length mid <= length M)%nat).
    { apply chunks_len. eapply Forall_impl; [|exact Hmid]. intros c (C & _). exact C. }
    unfold lenN in LB. lia. }
  cbn [find_data].
  destruct (chunk_header_at B (q + lenN M) data_id (d) _ D7 eq_refl)
    as (E8 & D8); [change (2 ^ 32) with 4294967296; lia|].
  rewrite E8, bytes_eqb_refl.
  rewrite wrap64_id by (change (2 ^ 64) with 18446744073709551616; unfold q; lia).
  replace (4 * ch / ch) with 4 by (symmetry; apply N.div_mul; lia).
  change (4 =? 0) with false. change ((3 =? 2) || (3 =? 17)) with false. cbn iota.
  exists B, (q + lenN M + 8).
  split; [reflexivity|]. split; [exact D8|].
  change (2 ^ 31) with 2147483648; unfold q; lia.
Qed.

Lemma open_ok rs ch sps br tail pre mid samples after :
  36 <= rs < 2 ^ 32 -> 1 <= ch < 2 ^ 14 -> 1 <= sps < 2 ^ 32 ->
  format_tail tail -> Forall extra_chunk pre -> Forall extra_chunk mid ->
  lenN (concat (map chunk pre)) + lenN tail + lenN (concat (map chunk mid)) < 2 ^ 30 ->
  Forall is_sample samples -> 4 * lenN samples < 2 ^ 32 -> lenN after < 2 ^ 61 ->
  exists r, wr_open (float_wav rs ch sps br tail pre mid samples after) = Opened r /\
    rinv r ch sps samples 0.
Proof.
  intros Hrs Hch Hsps Ht Hpre Hmid Hl Hsm Hn Haf.
  destruct (open_gen rs ch sps br tail pre mid (4 * lenN samples) (samples_bytes samples ++ after)
    Hrs Hch Hsps Ht Hpre Hmid Hl Hn) as (B & dp & E & D & Hd).
  { rewrite lenN_app, lenN_samples. change (2 ^ 32) with 4294967296 in Hn.
    change (2 ^ 61) with 2305843009213693952 in Haf. change (2 ^ 62) with 4611686018427387904. lia. }
  eexists. split; [exact E|]. exists B, dp, after.
  replace (4 * lenN samples / 4) with (lenN samples) by (rewrite N.mul_comm, N.div_mul; lia).
  rewrite N.mul_0_r, N.add_0_r, N.sub_0_r.
  split; [reflexivity|]. split; [exact D|]. split; [lia|]. auto.
Qed.

Lemma Forall_takeN {A} (P : A -> Prop) n l : Forall P l -> Forall P (takeN n l).
Proof. intros H. apply Forall_forall. intros x Hx. rewrite Forall_forall in H. apply H. unfold takeN in Hx.
  rewrite <- (firstn_skipn (N.to_nat n) l). apply in_or_app. now left. Qed.
Lemma Forall_dropN {A} (P : A -> Prop) n l : Forall P l -> Forall P (dropN n l).
Proof. intros H. apply Forall_forall. intros x Hx. rewrite Forall_forall in H. apply H. unfold dropN in Hx.
  rewrite <- (firstn_skipn (N.to_nat n) l). apply in_or_app. now right. Qed.

Lemma rinv_position r ch sps samples p : rinv r ch sps samples p -> wr_position r = p.
Proof.
  intros (B & dp & rest & -> & _ & Hp & _ & Hn & _). unfold wr_position. cbn [r_total r_remaining r_bps].
  replace (4 * (lenN samples - p) / 4) with (lenN samples - p) by (rewrite N.mul_comm, N.div_mul; lia).
  change (2 ^ 32) with 4294967296 in Hn.
  rewrite sub64_id; [lia|lia|change (2 ^ 64) with 18446744073709551616; lia].
Qed.

Lemma rinv_read r ch sps samples p n : rinv r ch sps samples p -> n < 2 ^ 32 ->
  exists r', wr_read r n = Some (takeN n (dropN p samples), r') /\
    rinv r' ch sps samples (p + lenN (takeN n (dropN p samples))).
Proof.
  intros (B & dp & rest & -> & HD & Hp & Hdp & Hn & Hs) H.
  unfold wr_read. cbn [r_tag r_bps r_remaining r_file r_rate r_ch r_total r_datapos r_datasize].
  rewrite (N.mod_small n) by exact H.
  destruct (N.eqb_spec n 0) as [->|Hn0].
  { eexists. split; [reflexivity|].
    rewrite takeN_0, lenN_nil, N.add_0_r. exists B, dp, rest. auto 10. }
  change ((3 =? 3) && (4 =? 4)) with true. cbn iota.
  unfold fread. cbn [f_bytes f_pos].
  assert (E : takeN (N.min (n * 4) (4 * (lenN samples - p))) (dropN (dp + 4 * p) B)
              = samples_bytes (takeN n (dropN p samples))).
  { rewrite dropN_plus, HD. rewrite dropN_app_le by (rewrite lenN_samples; lia).
    rewrite dropN_samples.
    rewrite takeN_app_le by (rewrite lenN_samples, lenN_dropN; lia).
    replace (N.min (n * 4) (4 * (lenN samples - p))) with (4 * N.min n (lenN samples - p)) by lia.
    rewrite takeN_samples. f_equal.
    destruct (N.leb_spec n (lenN samples - p)) as [L|L].
    - rewrite N.min_l by exact L. reflexivity.
    - rewrite N.min_r by lia. rewrite !takeN_all by (rewrite lenN_dropN; lia). reflexivity. }
  rewrite E. set (out := takeN n (dropN p samples)).
  assert (Ho : Forall is_sample out) by (apply Forall_takeN, Forall_dropN, Hs).
  assert (Lo : lenN out <= lenN samples - p) by (unfold out; rewrite lenN_takeN, lenN_dropN; lia).
  cbn zeta. cbv iota beta.
  assert (Eb : bytes_samples (samples_bytes out) = out).
  { rewrite <- (app_nil_r (samples_bytes out)). apply bytes_samples_ok; [exact Ho|rewrite lenN_nil; lia]. }
  rewrite Eb.
  eexists. split; [reflexivity|].
  exists B, dp, rest. rewrite lenN_samples.
  replace (dp + 4 * p + 4 * lenN out) with (dp + 4 * (p + lenN out)) by lia.
  replace (4 * (lenN samples - p) - 4 * lenN out) with (4 * (lenN samples - (p + lenN out))) by lia.
  split; [reflexivity|]. split; [exact HD|]. split; [lia|]. auto.
Qed.

Lemma rinv_restart r ch sps samples p : rinv r ch sps samples p ->
  exists r', wr_restart r = (true, r') /\ rinv r' ch sps samples 0.
Proof.
  intros (B & dp & rest & -> & HD & Hp & Hdp & Hn & Hs).
  unfold wr_restart. cbn [r_tag r_bps r_remaining r_file r_rate r_ch r_total r_datapos r_datasize].
  rewrite int_of_id by exact Hdp. unfold fseek_set. cbn [f_bytes].
  destruct (Z.ltb_spec (Z.of_N dp) 0); [lia|]. rewrite N2Z.id.
  eexists. split; [reflexivity|]. exists B, dp, rest.
  rewrite N.mul_0_r, N.add_0_r, N.sub_0_r. split; [reflexivity|]. split; [exact HD|]. split; [lia|]. auto.
Qed.

Lemma rinv_seek r ch sps samples p t : rinv r ch sps samples p ->
  exists r', wr_seek r t = Some (true, r') /\ rinv r' ch sps samples (N.min t (lenN samples - 1)).
Proof.
  intros I. destruct (rinv_restart _ _ _ _ _ I) as (r0 & E0 & I0).
  destruct I as (B & dp & rest & -> & HD & Hp & Hdp & Hn & Hs).
  change (2 ^ 32) with 4294967296 in Hn.
  unfold wr_seek. rewrite E0. cbn [r_tag r_bps r_remaining r_file r_rate r_ch r_total r_datapos r_datasize].
  destruct (N.eqb_spec (lenN samples) 0) as [Z0|Hnz].
  { eexists. split; [reflexivity|]. exists B, dp, rest.
    assert (p = 0) as -> by lia.
    replace (N.min t (lenN samples - 1)) with 0 by lia.
    split; [reflexivity|]. split; [exact HD|]. split; [lia|].
    split; [exact Hdp|]. split; [change (2 ^ 32) with 4294967296; lia|exact Hs]. }
  destruct (N.ltb_spec (lenN samples * 4) (4 * (lenN samples - p))); [lia|].
  set (s := if lenN samples <=? t then lenN samples - 1 else t).
  assert (Es : s = N.min t (lenN samples - 1)).
  { unfold s. destruct (N.leb_spec (lenN samples) t); lia. }
  assert (Ls : s < lenN samples) by lia.
  rewrite <- Es. clearbody s. clear Es.
  destruct (N.ltb_spec (lenN samples * 4 - 4 * (lenN samples - p)) (s * 4)) as [L|L].
  - eexists. split; [reflexivity|]. exists B, dp, rest. unfold seek_forward. cbn [f_bytes f_pos].
    rewrite sub64_id by (try (change (2 ^ 64) with 18446744073709551616); lia).
    replace (dp + 4 * p + (s * 4 - (lenN samples * 4 - 4 * (lenN samples - p)))) with (dp + 4 * s) by lia.
    replace (4 * (lenN samples - p) - (s * 4 - (lenN samples * 4 - 4 * (lenN samples - p))))
      with (4 * (lenN samples - s)) by lia.
    split; [reflexivity|]. split; [exact HD|]. split; [lia|].
    split; [exact Hdp|]. split; [change (2 ^ 32) with 4294967296; lia|exact Hs].
  - eexists. split; [reflexivity|].
    destruct I0 as (B0 & dp0 & rest0 & -> & HD0 & Hp0 & Hdp0 & Hn0 & Hs0).
    exists B0, dp0, rest0. unfold seek_forward.
    cbn [f_bytes f_pos r_tag r_bps r_remaining r_file r_rate r_ch r_total r_datapos r_datasize].
    rewrite sub64_id by (try (change (2 ^ 64) with 18446744073709551616); lia).
    replace (dp0 + 4 * 0 + s * 4) with (dp0 + 4 * s) by lia.
    replace (4 * (lenN samples - 0) - s * 4) with (4 * (lenN samples - s)) by lia.
    split; [reflexivity|]. split; [exact HD0|]. split; [lia|]. auto.
Qed.

Lemma rinv_uses us : forall r ch sps samples p, rinv r ch sps samples p -> Forall use_ok us ->
  reader_uses r us = Some (cursor_uses samples p us).
Proof.
  induction us as [|u us IH]; intros r ch sps samples p I HF; [reflexivity|].
  inversion HF as [|u' us' Hu Hus]; subst. cbn [reader_uses cursor_uses].
  assert (S : exists r', reader_use r u = Some (fst (cursor_use samples p u), r') /\
                         rinv r' ch sps samples (snd (cursor_use samples p u))).
  { destruct u as [n|t|]; cbn [reader_use cursor_use fst snd].
    - exact (rinv_read r ch sps samples p n I Hu).
    - destruct (rinv_seek r ch sps samples p t I) as (r' & E & I'). rewrite E. eauto.
    - destruct (rinv_restart r ch sps samples p I) as (r' & E & I'). rewrite E. eauto. }
  destruct S as (r' & E & I'). rewrite E. cbn [bind fst snd].
  rewrite (IH r' ch sps samples _ I' Hus). cbn [bind].
  rewrite (rinv_position _ _ _ _ _ I'). destruct (cursor_use samples p u). reflexivity.
Qed.

Lemma rinv_plays r ch sps samples : rinv r ch sps samples 0 -> plays r ch sps samples.
Proof.
  intros I. pose proof (rinv_position _ _ _ _ _ I) as Ep. pose proof I as I'.
  destruct I' as (B & dp & rest & E & _).
  split; [rewrite E; reflexivity|]. split; [rewrite E; reflexivity|]. split; [rewrite E; reflexivity|].
  split; [exact Ep|]. intros us Hus. exact (rinv_uses us r ch sps samples 0 I Hus).
Qed.

(** ** the writer *)
Lemma fwrite_end b bs : fwrite (File b (lenN b)) bs = File (b ++ bs) (lenN (b ++ bs)).
Proof.
  unfold fwrite. cbn [f_bytes f_pos]. rewrite N.sub_diag. cbn [repeat N.to_nat]. rewrite app_nil_r.
  rewrite takeN_all by lia. f_equal; [|now rewrite lenN_app].
  replace (dropN (lenN b + lenN bs) b) with (@nil N); [now rewrite app_nil_r|].
  symmetry. unfold dropN. apply skipn_all2. unfold lenN. lia.
Qed.
Definition writes (l : list (list N)) : list fop := map Fwrite l.
Lemma run_writes l : forall b, fold_left fop_run (writes l) (File b (lenN b)) =
  File (b ++ concat l) (lenN (b ++ concat l)).
Proof.
  induction l as [|x l IH]; intros b; cbn [writes map fold_left concat fop_run].
  - now rewrite app_nil_r.
  - rewrite fwrite_end. unfold writes in IH. rewrite IH, app_assoc. reflexivity.
Qed.
Lemma fwrite_over a old b new pos : lenN new = lenN old -> pos = lenN a ->
  fwrite (File (a ++ old ++ b) pos) new = File (a ++ new ++ b) (pos + lenN new).
Proof.
  intros H ->. unfold fwrite. cbn [f_bytes f_pos].
  replace (lenN a - lenN (a ++ old ++ b)) with 0 by (rewrite lenN_app; lia).
  cbn [repeat N.to_nat]. rewrite app_nil_r. rewrite takeN_app. f_equal. f_equal. f_equal.
  rewrite dropN_plus, dropN_app. apply dropN_exact. exact H.
Qed.

Definition head_pieces (ch sps : N) : list (list N) :=
  [ riff_id; le 4 36; wave_id; fmt_id; le 4 16; le 2 3; le 2 ch; le 4 sps;
    le 4 ((32 * sps * ch) mod 2 ^ 32 / 8); le 2 (4 * ch); le 2 32; data_id; le 4 0 ].
Lemma open_log ch sps : ch < 2 ^ 14 -> w_log (ww_open ch sps) = writes (head_pieces ch sps).
Proof.
  intros H. change (2 ^ 14) with 16384 in H. unfold ww_open, head_pieces, writes. cbn [w_log map].
  change (2 ^ 32) with 4294967296.
  rewrite (N.mod_small ch) by lia.
  rewrite (N.mod_small (ch * 32)) by lia.
  replace (ch * 32 / 8) with (4 * ch) by (replace (ch * 32) with (4 * ch * 8) by lia; rewrite N.div_mul; lia).
  reflexivity.
Qed.
Lemma head_concat ch sps payload : concat (head_pieces ch sps) ++ payload = image ch sps (le 4 36) (le 4 0) payload.
Proof.
  unfold head_pieces, image, head2, float_format. cbn [concat]. rewrite app_nil_r, <- !app_assoc. reflexivity.
Qed.

Lemma takeN_lenN {A} (l : list A) : takeN (lenN l) l = l.
Proof. apply takeN_all. lia. Qed.
Lemma write_all_log bufs : forall w, 
  Forall (fun b => lenN b < 2 ^ 32) bufs -> w_datasize w + 4 * lenN (concat bufs) < 2 ^ 64 ->
  exists l, write_all w bufs = (map (fun b => lenN b) bufs, Writer (w_log w ++ writes l) (w_datasize w + 4 * lenN (concat bufs))) /\
    concat l = samples_bytes (concat bufs).
Proof.
  induction bufs as [|b bufs IH]; intros w HF Hd.
  - exists []. cbn. rewrite app_nil_r, N.mul_0_r, N.add_0_r. destruct w; auto.
  - inversion HF as [|b' bs' Hb Hbs]; subst. cbn [write_all concat map] in *. rewrite lenN_app in *.
    unfold ww_write_buffer, ww_write. rewrite (N.mod_small (lenN b)) by exact Hb.
    destruct (N.eqb_spec (lenN b) 0) as [E0|E0].
    + destruct (IH w Hbs) as (l & E & Hl); [lia|]. rewrite E. exists l.
      assert (b = []) as -> by (destruct b; [reflexivity|rewrite lenN_cons in E0; lia]).
      cbn [app]. change (lenN (@nil N)) with 0. rewrite (N.add_0_l (lenN (concat bufs))). auto.
    + rewrite takeN_lenN, lenN_samples.
      rewrite wrap64_id by lia.
      destruct (IH (Writer (w_log w ++ [Fwrite (samples_bytes b)]) (w_datasize w + 4 * lenN b)) Hbs)
        as (l & E & Hl); [cbn [w_datasize]; lia|].
      rewrite E. cbn [w_log w_datasize]. exists (samples_bytes b :: l).
      split.
      * replace (4 * lenN b * 8 / 32) with (lenN b) by (replace (4 * lenN b * 8) with (lenN b * 32) by lia; rewrite N.div_mul; lia).
        rewrite <- app_assoc. cbn [app writes map].
        replace (w_datasize w + 4 * lenN b + 4 * lenN (concat bufs)) with (w_datasize w + 4 * (lenN b + lenN (concat bufs))) by lia.
        reflexivity.
      * cbn [concat]. rewrite Hl, samples_app. reflexivity.
Qed.

Lemma lenN_head2 ch sps : lenN (head2 ch sps) = 32.
Proof. unfold head2. rewrite !lenN_app, lenN_le, lenN_float_format. reflexivity. Qed.

(** the bytes on disk while the writer is open, and after closing *)
Section Session.
Variables (ch sps : N) (bufs : list (list N)).
Hypothesis Hch : 1 <= ch < 2 ^ 14.
Hypothesis Hsps : 1 <= sps < 2 ^ 32.
Hypothesis Hbufs : Forall (fun b => lenN b < 2 ^ 32) bufs.
Let all := concat bufs.
Hypothesis Hall : 4 * lenN all < 2 ^ 64.
Let w := snd (write_all (ww_open ch sps) bufs).

Lemma session : exists l,
  fst (write_all (ww_open ch sps) bufs) = map (fun b => lenN b) bufs /\
  w_log w = writes (head_pieces ch sps ++ l) /\ w_datasize w = 4 * lenN all /\ concat l = samples_bytes all.
Proof.
  destruct (write_all_log bufs (ww_open ch sps) Hbufs) as (l & E & Hl); [cbn [w_datasize ww_open]; exact Hall|].
  exists l. unfold w. rewrite E. cbn [fst snd w_log w_datasize].
  split; [reflexivity|]. split; [|split; [cbn [ww_open w_datasize]; reflexivity|exact Hl]].
  rewrite (open_log ch sps) by apply Hch. unfold writes. rewrite map_app. reflexivity.
Qed.

Lemma even_size : (4 * lenN all) mod 2 = 0.
Proof. replace (4 * lenN all) with (2 * lenN all * 2) by lia. apply N.mod_mul. lia. Qed.

Lemma disk_open : disk (w_log w) = image ch sps (le 4 36) (le 4 0) (samples_bytes all).
Proof.
  destruct session as (l & _ & E & _ & Hl). unfold disk. rewrite E.
  change (File [] 0) with (File [] (lenN (@nil N))). rewrite run_writes. cbn [app f_bytes].
  rewrite concat_app, Hl. apply head_concat.
Qed.

Lemma close_ops : exists l,
  ww_close w = writes (head_pieces ch sps ++ l)
    ++ [Fseek 4; Fwrite (le 4 (riff_size (4 * lenN all))); Fseek 40; Fwrite (le 4 (data_size (4 * lenN all)))] /\
  concat l = samples_bytes all.
Proof.
  destruct session as (l & _ & E & Ed & Hl). exists l. split; [|exact Hl].
  unfold ww_close. rewrite Ed, even_size, E. reflexivity.
Qed.

Lemma disk_closed : disk (ww_close w) =
  image ch sps (le 4 (riff_size (4 * lenN all))) (le 4 (data_size (4 * lenN all))) (samples_bytes all).
Proof.
  destruct close_ops as (l & E & Hl). unfold disk. rewrite E, fold_left_app.
  change (File [] 0) with (File [] (lenN (@nil N))). rewrite run_writes. cbn [app].
  rewrite concat_app, Hl, head_concat. cbn [fold_left fop_run f_bytes].
  set (rs := le 4 (riff_size _)). set (ds := le 4 (data_size _)).
  unfold image at 1.
  rewrite fwrite_over; [|unfold rs; now rewrite !lenN_le|reflexivity]. cbn [f_bytes].
  assert (Ea : riff_id ++ rs ++ head2 ch sps ++ le 4 0 ++ samples_bytes all
    = (riff_id ++ rs ++ head2 ch sps) ++ le 4 0 ++ samples_bytes all) by (rewrite <- !app_assoc; reflexivity).
  rewrite Ea. rewrite fwrite_over; [|unfold ds; now rewrite !lenN_le|].
  2:{ unfold rs. rewrite !lenN_app, lenN_le, lenN_head2. reflexivity. }
  cbn [f_bytes]. unfold image. rewrite <- !app_assoc. reflexivity.
Qed.
End Session.

Lemma image_float_wav ch sps rs samples after :
  image ch sps (le 4 rs) (le 4 (4 * lenN samples)) (samples_bytes samples ++ after)
  = float_wav rs ch sps ((32 * sps * ch) mod 2 ^ 32 / 8) [] [] [] samples after.
Proof.
  unfold image, float_wav, head2, chunk. cbn [map concat app fst snd]. rewrite app_nil_r, lenN_float_format.
  rewrite <- !app_assoc. reflexivity.
Qed.

Lemma image_open ch sps rs samples after :
  1 <= ch < 2 ^ 14 -> 1 <= sps < 2 ^ 32 -> 36 <= rs < 2 ^ 32 ->
  Forall is_sample samples -> 4 * lenN samples < 2 ^ 32 -> lenN after < 2 ^ 61 ->
  exists r, wr_open (image ch sps (le 4 rs) (le 4 (4 * lenN samples)) (samples_bytes samples ++ after)) = Opened r /\
    plays r ch sps samples.
Proof.
  intros H1 H2 H3 H4 H5 H6. rewrite image_float_wav.
  destruct (open_ok rs ch sps ((32 * sps * ch) mod 2 ^ 32 / 8) [] [] [] samples after H3 H1 H2) as (r & E & I);
    try (left; reflexivity); try constructor; auto.
  exists r. split; [exact E|]. apply rinv_plays, I.
Qed.

(** ** crashes *)
Lemma take_step {A} k n (x r : list A) : n = lenN x ->
  (lenN (takeN k (x ++ r)) < n) \/ (n <= k /\ takeN k (x ++ r) = x ++ takeN (k - n) r).
Proof.
  intros ->. destruct (N.ltb_spec k (lenN x)) as [H|H]; [left|right; split; [exact H|]].
  - rewrite lenN_takeN. lia.
  - unfold takeN, lenN in *. rewrite firstn_app, firstn_all2 by lia. f_equal. f_equal. lia.
Qed.
Lemma fread_short B q x n : dropN q B = x -> lenN x < n -> fread_exactly (File B q) n = None.
Proof.
  intros H L. unfold fread_exactly, fread. cbn [f_pos f_bytes]. rewrite H, takeN_all by lia.
  destruct (N.eqb_spec (lenN x) n); [lia|reflexivity].
Qed.
Lemma header_short B q x : dropN q B = x -> lenN x < 8 -> chunk_header (File B q) = None.
Proof.
  intros H L. unfold chunk_header.
  destruct (N.ltb_spec (lenN x) 4) as [L4|L4].
  - rewrite (fread_short B q x 4 H L4). reflexivity.
  - assert (D : dropN q B = takeN 4 x ++ dropN 4 x) by (rewrite takeN_dropN; exact H).
    destruct (fread_at B q _ _ 4 D) as [E D1]; [rewrite lenN_takeN; lia|]. rewrite E. cbn [bind snd fst].
    rewrite (fread_short B (q + 4) (dropN 4 x) 4 D1); [reflexivity|rewrite lenN_dropN; lia].
Qed.

(** a file that ends inside the header written by [wav_writer] cannot be opened *)
Lemma short_header_fails ch sps R k : 1 <= ch < 2 ^ 14 -> 1 <= sps < 2 ^ 32 -> k < 44 ->
  wr_open (takeN k (image ch sps (le 4 36) (le 4 0) R)) = Failed.
Proof.
  intros Hc Hs Hk. set (B := takeN k (image ch sps (le 4 36) (le 4 0) R)).
  assert (HB : lenN B <= k) by (unfold B; rewrite lenN_takeN; lia).
  assert (LB : length B = N.to_nat (lenN B)) by (unfold lenN; lia).
  assert (D0 : dropN 0 B = takeN k (image ch sps (le 4 36) (le 4 0) R)) by reflexivity.
  clearbody B. unfold image in D0. unfold wr_open.
  destruct (take_step k 4 riff_id (le 4 36 ++ head2 ch sps ++ le 4 0 ++ R) eq_refl) as [S|[K1 E1]].
  { rewrite (fread_short B 0 _ 4 D0 S). reflexivity. }
  rewrite E1 in D0. destruct (fread_at B 0 _ _ 4 D0 eq_refl) as [F1 D1]. rewrite F1, bytes_eqb_refl.
  cbn [negb]. cbn iota.
  destruct (take_step (k - 4) 4 (le 4 36) (head2 ch sps ++ le 4 0 ++ R) eq_refl) as [S|[K2 E2]].
  { rewrite (fread_short B _ _ 4 D1 S). reflexivity. }
  rewrite E2 in D1. destruct (fread_at B _ _ _ 4 D1 eq_refl) as [F2 D2]. rewrite F2.
  change (unle (le 4 36) <? 36) with false. cbn iota. unfold head2 in D2. rewrite <- !app_assoc in D2.
  match type of D2 with _ = takeN _ (wave_id ++ ?R2) =>
    destruct (take_step (k - 4 - 4) 4 wave_id R2 eq_refl) as [S|[K3 E3]] end.
  { rewrite (fread_short B _ _ 4 D2 S). reflexivity. }
  rewrite E3 in D2. destruct (fread_at B _ _ _ 4 D2 eq_refl) as [F3 D3]. rewrite F3, bytes_eqb_refl.
  cbn [negb]. cbn iota. change (0 + 4 + 4 + 4) with 12 in *. cbn [find_fmt].
  match type of D3 with _ = takeN _ (fmt_id ++ le 4 16 ++ ?R3) =>
    destruct (take_step (k - 4 - 4 - 4) 8 (fmt_id ++ le 4 16) R3 eq_refl) as [S|[K4 E4]]; rewrite <- app_assoc in * end.
  { rewrite (header_short B 12 _ D3 S). reflexivity. }
  rewrite E4 in D3. destruct (chunk_header_at B 12 fmt_id 16 _ D3 eq_refl) as [F4 D4]; [reflexivity|].
  rewrite F4, bytes_eqb_refl. change (12 + 8) with 20 in *. change (wrap64 20) with 20. change (16 mod 2) with 0.
  match type of D4 with _ = takeN _ (float_format ?a ?b ?c ++ ?R4) =>
    destruct (take_step (k - 4 - 4 - 4 - 8) 16 (float_format a b c) R4) as [S|[K5 E5]]; [now rewrite lenN_float_format| |] end.
  { unfold read_fmt. rewrite (fread_short B 20 _ 16 D4 S). reflexivity. }
  rewrite E5 in D4.
  assert (Ez : lenN (float_format ch sps ((32 * sps * ch) mod 2 ^ 32 / 8) ++ []) = 16)
    by (rewrite app_nil_r, lenN_float_format; reflexivity).
  assert (LT : 20 <= lenN B).
  { assert (Q : lenN (dropN 20 B) = lenN B - 20) by apply lenN_dropN.
    rewrite D4, lenN_app, lenN_float_format in Q. lia. }
  change (2 ^ 32) with 4294967296 in *. change (2 ^ 14) with 16384 in Hc.
  match type of D4 with _ = _ ++ ?rest =>
    pose proof (read_fmt_ok B 20 ch sps ((32 * sps * ch) mod 4294967296 / 8) [] rest
      ltac:(change (2 ^ 14) with 16384; lia) ltac:(change (2 ^ 32) with 4294967296; lia)
      ltac:(left; reflexivity) ltac:(change (2 ^ 63) with 9223372036854775808; lia) LT) as RF end.
  cbn zeta in RF. rewrite Ez in RF. change (16 mod 2) with 0 in RF. change (20 + (16 + 0)) with 36 in RF.
  specialize (RF D4). rewrite RF. cbn [m_rate m_ch m_bits m_align m_tag m_sub].
  destruct (N.eqb_spec sps 0); [lia|]. destruct (N.eqb_spec ch 0); [lia|].
  destruct (N.eqb_spec (4 * ch) 0); [lia|]. cbn [orb]. change (32 =? 0) with false. cbn [orb]. cbn iota.
  change (3 =? 65534) with false. cbn iota.
  assert (D5 : exists x, dropN 36 B = x /\ lenN x < 8).
  { eexists. split; [reflexivity|]. rewrite lenN_dropN. lia. }
  destruct D5 as (x & D5 & L5). cbn [find_data]. rewrite (header_short B 36 x D5 L5). reflexivity.
Qed.

(** a RIFF size below 36 is rejected *)
Lemma small_riff_fails ch sps rs ds payload : rs < 36 ->
  wr_open (image ch sps (le 4 rs) ds payload) = Failed.
Proof.
  intros H. set (B := image ch sps (le 4 rs) ds payload).
  assert (D0 : dropN 0 B = riff_id ++ le 4 rs ++ head2 ch sps ++ ds ++ payload) by reflexivity.
  clearbody B. unfold wr_open.
  destruct (fread_at B 0 _ _ 4 D0 eq_refl) as [F1 D1]. rewrite F1, bytes_eqb_refl. cbn [negb]. cbn iota.
  destruct (fread_at B _ _ _ 4 D1) as [F2 D2]; [now rewrite lenN_le|]. rewrite F2.
  rewrite unle_le4 by (change (2 ^ 32) with 4294967296; lia).
  destruct (N.ltb_spec rs 36); [reflexivity|lia].
Qed.

(** bytes overwritten one at a time *)
Lemma bytewise_writes l : flat_map bytewise (writes l) = writes (map (fun b => [b]) (concat l)).
Proof.
  induction l as [|x l IH]; [reflexivity|]. cbn [writes map flat_map concat bytewise].
  unfold writes in *. rewrite map_app, map_app, IH. f_equal. rewrite map_map. reflexivity.
Qed.
Lemma firstn_writes k l : firstn k (writes l) = writes (firstn k l).
Proof. unfold writes. apply firstn_map. Qed.
Lemma concat_singles (l : list N) : concat (map (fun b => [b]) l) = l.
Proof. induction l as [|x l IH]; [reflexivity|]. cbn. now rewrite IH. Qed.

Lemma run_over l : forall a old b, (length l <= length old)%nat ->
  fold_left fop_run (writes (map (fun b => [b]) l)) (File (a ++ old ++ b) (lenN a)) =
  File (a ++ l ++ skipn (length l) old ++ b) (lenN (a ++ l)).
Proof.
  induction l as [|x l IH]; intros a old b H.
  - cbn. now rewrite app_nil_r.
  - destruct old as [|y old]; [cbn in H; lia|]. cbn [map writes fold_left fop_run].
    change (a ++ (y :: old) ++ b) with (a ++ [y] ++ (old ++ b)).
    rewrite fwrite_over by reflexivity.
    replace (a ++ [x] ++ old ++ b) with ((a ++ [x]) ++ old ++ b) by (rewrite <- app_assoc; reflexivity).
    replace (lenN a + lenN [x]) with (lenN (a ++ [x])) by apply lenN_app.
    unfold writes in IH. rewrite IH by (cbn in H; lia). cbn [length skipn].
    rewrite <- !app_assoc. reflexivity.
Qed.

Definition byte (b : N) : Prop := b < 256.
Lemma le_unle l : Forall byte l -> le (length l) (unle l) = l.
Proof.
  induction 1 as [|b l Hb Hl IH]; [reflexivity|]. unfold byte in Hb. cbn [length unle le].
  replace (b + 256 * unle l) with (b + unle l * 256) by lia.
  rewrite N.mod_add, N.mod_small by lia. f_equal.
  rewrite N.div_add, N.div_small, N.add_0_l by lia. exact IH.
Qed.
Lemma unle_bound l : Forall byte l -> unle l < 256 ^ lenN l.
Proof.
  induction 1 as [|b l Hb Hl IH]; [reflexivity|]. unfold byte in Hb. rewrite lenN_cons.
  replace (1 + lenN l) with (N.succ (lenN l)) by lia. rewrite N.pow_succ_r by lia. cbn [unle]. lia.
Qed.
Lemma le_bytes k x : Forall byte (le k x).
Proof. revert x. induction k as [|k IH]; intros x; cbn; constructor; [unfold byte; apply N.mod_lt; lia|apply IH]. Qed.
Lemma mix_riff j x y : exists z, z < 2 ^ 32 /\ firstn j (le 4 x) ++ skipn j (le 4 y) = le 4 z.
Proof.
  set (l := firstn j (le 4 x) ++ skipn j (le 4 y)).
  assert (HL : length l = 4%nat).
  { unfold l. rewrite app_length, firstn_length, skipn_length, !le_length. lia. }
  assert (HF : Forall byte l).
  { unfold l. apply Forall_app. split.
    - pose proof (le_bytes 4 x) as H. rewrite <- (firstn_skipn j (le 4 x)) in H. apply Forall_app in H. tauto.
    - pose proof (le_bytes 4 y) as H. rewrite <- (firstn_skipn j (le 4 y)) in H. apply Forall_app in H. tauto. }
  exists (unle l). split.
  - pose proof (unle_bound l HF) as H. unfold lenN in H. rewrite HL in H. exact H.
  - pose proof (le_unle l HF) as H. rewrite HL in H. symmetry. exact H.
Qed.
Lemma le_mod j : forall k x, (j <= k)%nat -> le k (x mod 256 ^ N.of_nat j) = firstn j (le k x) ++ skipn j (le k 0).
Proof.
  induction j as [|j IH]; intros k x H.
  - change (256 ^ N.of_nat 0) with 1. rewrite N.mod_1_r. reflexivity.
  - destruct k as [|k]; [lia|]. cbn [le firstn skipn app].
    rewrite Nat2N.inj_succ, N.pow_succ_r by lia.
    assert (P0 : 256 ^ N.of_nat j <> 0) by (apply N.pow_nonzero; lia).
    rewrite N.mod_mul_r by lia.
    replace (x mod 256 + 256 * ((x / 256) mod 256 ^ N.of_nat j)) with
      ((x / 256) mod 256 ^ N.of_nat j * 256 + x mod 256) by lia.
    assert (B : x mod 256 < 256) by (apply N.mod_lt; lia).
    f_equal.
    + rewrite N.add_comm, N.mod_add, N.mod_small by lia. reflexivity.
    + rewrite N.div_add_l, (N.div_small (x mod 256)), N.add_0_r by lia.
      rewrite IH by lia. reflexivity.
Qed.
(** a torn data size is the size of fewer whole samples *)
Lemma torn_size j n : 4 * n < 2 ^ 32 -> (j <= 4)%nat ->
  exists m, m <= n /\ firstn j (le 4 (4 * n)) ++ skipn j (le 4 0) = le 4 (4 * m).
Proof.
  intros H Hj. destruct j as [|j].
  - exists 0. split; [lia|]. reflexivity.
  - assert (P0 : 256 ^ N.of_nat j <> 0) by (apply N.pow_nonzero; lia).
    exists (n mod (64 * 256 ^ N.of_nat j)). split; [apply N.mod_le; lia|].
    rewrite <- le_mod by exact Hj. f_equal. rewrite Nat2N.inj_succ, N.pow_succ_r by lia.
    replace (256 * 256 ^ N.of_nat j) with (4 * (64 * 256 ^ N.of_nat j)) by lia.
    apply N.mul_mod_distr_l; lia.
Qed.

Lemma prefix_reads ch sps z all m :
  1 <= ch < 2 ^ 14 -> 1 <= sps < 2 ^ 32 -> z < 2 ^ 32 -> m <= lenN all ->
  Forall is_sample all -> 4 * lenN all < 2 ^ 32 ->
  let o := wr_open (image ch sps (le 4 z) (le 4 (4 * m)) (samples_bytes all)) in
  o = Failed \/ exists r n, o = Opened r /\ plays r ch sps (takeN n all).
Proof.
  intros Hc Hs Hz Hm Ha Hl o. subst o.
  destruct (N.ltb_spec z 36) as [L|L]; [left; now apply small_riff_fails|right].
  assert (E : lenN (takeN m all) = m) by (rewrite lenN_takeN; lia).
  destruct (image_open ch sps z (takeN m all) (samples_bytes (dropN m all)) Hc Hs) as (r & Eo & P).
  - lia.
  - apply Forall_takeN, Ha.
  - rewrite E. lia.
  - rewrite lenN_samples, lenN_dropN. change (2 ^ 32) with 4294967296 in Hl.
    change (2 ^ 61) with 2305843009213693952. lia.
  - rewrite E, <- samples_app, takeN_dropN in Eo. exists r, m. auto.
Qed.

Lemma Fseek_cons p l f : fold_left fop_run (Fseek p :: l) f = fold_left fop_run l (File (f_bytes f) p).
Proof. reflexivity. Qed.

Lemma crash_reads ch sps bufs k :
  1 <= ch < 2 ^ 14 -> 1 <= sps < 2 ^ 32 -> Forall (fun b => lenN b < 2 ^ 32) bufs ->
  4 * lenN (concat bufs) < 2 ^ 32 -> Forall is_sample (concat bufs) ->
  let w := snd (write_all (ww_open ch sps) bufs) in
  let o := wr_open (disk (firstn k (flat_map bytewise (ww_close w)))) in
  o = Failed \/ exists r n, o = Opened r /\ plays r ch sps (takeN n (concat bufs)).
Proof.
  intros Hc Hs Hb Hl Ha w.
  set (Q := fun b => wr_open b = Failed \/
                     exists r n, wr_open b = Opened r /\ plays r ch sps (takeN n (concat bufs))).
  change (Q (disk (firstn k (flat_map bytewise (ww_close w))))).
  assert (Hl64 : 4 * lenN (concat bufs) < 2 ^ 64)
    by (change (2 ^ 32) with 4294967296 in Hl; change (2 ^ 64) with 18446744073709551616; lia).
  destruct (close_ops ch sps bufs Hc Hs Hb Hl64) as (l & E & El).
  unfold w. rewrite E. clear w E. set (all := concat bufs) in *.
  rewrite flat_map_app, bytewise_writes. cbn [flat_map bytewise]. rewrite app_nil_r.
  set (rs := riff_size (4 * lenN all)). 
  assert (Eds : data_size (4 * lenN all) = 4 * lenN all).
  { unfold data_size. change (2 ^ 32) with 4294967296 in *. destruct (N.leb_spec (4 * lenN all) (4294967296 - 1)); lia. }
  rewrite Eds.
  set (P := head_pieces ch sps ++ l).
  assert (EP : concat P = image ch sps (le 4 36) (le 4 0) (samples_bytes all)).
  { unfold P. rewrite concat_app, El. apply head_concat. }
  rewrite EP. set (I := image ch sps (le 4 36) (le 4 0) (samples_bytes all)) in *.
  rewrite firstn_app. unfold disk. rewrite fold_left_app, firstn_writes, firstn_map.
  change (File [] 0) with (File [] (lenN (@nil N))). rewrite run_writes, concat_singles. cbn [app].
  assert (EL : length (writes (map (fun b : N => [b]) I)) = length I) by (unfold writes; now rewrite !map_length).
  rewrite EL. clear EL.
  destruct (Nat.leb_spec k (length I)) as [Lk|Lk].
  { replace (k - length I)%nat with 0%nat by lia. cbn [firstn fold_left f_bytes].
    destruct (N.ltb_spec (N.of_nat k) 44) as [S|S].
    - left. replace (firstn k I) with (takeN (N.of_nat k) I) by (unfold takeN; now rewrite Nat2N.id).
      apply short_header_fails; assumption.
    - right. set (H44 := image ch sps (le 4 36) (le 4 0) []).
      assert (E44 : I = H44 ++ samples_bytes all).
      { unfold I, H44, image. rewrite app_nil_r, <- !app_assoc. reflexivity. }
      assert (L44 : length H44 = 44%nat).
      { unfold H44, image. rewrite !app_length, !le_length. pose proof (lenN_head2 ch sps) as QQ. unfold lenN in QQ.
        cbn [length riff_id]. lia. }
      rewrite E44, firstn_app, (firstn_all2 H44) by lia. rewrite L44.
      set (part := firstn (k - 44) (samples_bytes all)).
      destruct (image_open ch sps 36 [] part Hc Hs) as (r & Eo & Pl).
      + change (2 ^ 32) with 4294967296. lia.
      + constructor.
      + reflexivity.
      + unfold part, lenN. rewrite firstn_length. pose proof (lenN_samples all) as QQ. unfold lenN in QQ, Hl.
        change (2 ^ 32) with 4294967296 in Hl. change (2 ^ 61) with 2305843009213693952. lia.
      + exists r, 0. rewrite takeN_0. split; [|exact Pl]. rewrite <- Eo.
        unfold H44, image. rewrite app_nil_r, <- !app_assoc. reflexivity. }
  rewrite (firstn_all2 I) by lia. set (k' := (k - length I)%nat). clearbody k'. clear Lk.
  destruct k' as [|k1]; [cbn [firstn fold_left f_bytes]; exact (prefix_reads ch sps 36 all 0 Hc Hs eq_refl ltac:(lia) Ha Hl)|].
  cbn [firstn app]. rewrite Fseek_cons. cbn [f_bytes].
  rewrite firstn_app, fold_left_app.
  change (map (fun b => Fwrite [b]) (le 4 rs)) with (map (fun b => Fwrite ((fun c => [c]) b)) (le 4 rs)).
  rewrite <- (map_map (fun c => [c]) Fwrite). fold (writes (map (fun c : N => [c]) (le 4 rs))).
  rewrite firstn_writes, firstn_map.
  assert (L1 : (length (firstn k1 (le 4 rs)) <= length (le 4 36))%nat)
    by (rewrite firstn_length, !le_length; lia).
  unfold I at 1, image at 1.
  change (File (riff_id ++ le 4 36 ++ head2 ch sps ++ le 4 0 ++ samples_bytes all) 4)
    with (File (riff_id ++ le 4 36 ++ head2 ch sps ++ le 4 0 ++ samples_bytes all) (lenN riff_id)).
  rewrite run_over by exact L1.
  set (rsb := firstn k1 (le 4 rs) ++ skipn (length (firstn k1 (le 4 rs))) (le 4 36)).
  assert (Zr : exists z, z < 2 ^ 32 /\ rsb = le 4 z).
  { unfold rsb. rewrite firstn_length, le_length. destruct (Nat.leb_spec k1 4) as [QL|QL].
    - rewrite Nat.min_l by exact QL. apply mix_riff.
    - rewrite Nat.min_r by lia. rewrite (firstn_all2 (le 4 rs)) by (rewrite le_length; lia).
      pose proof (mix_riff 4 rs 36) as M. rewrite (firstn_all2 (le 4 rs)) in M by (rewrite le_length; lia). exact M. }
  destruct Zr as (z & Hz & Ez).
  match goal with |- context [ File ?b ?p ] =>
    assert (Eb : b = image ch sps rsb (le 4 0) (samples_bytes all)) by (unfold image, rsb; rewrite <- !app_assoc; reflexivity);
    rewrite Eb; clear Eb; generalize p end.
  rewrite Ez. clear rsb Ez L1. intros p.
  assert (EL : length (writes (map (fun b : N => [b]) (le 4 rs))) = 4%nat) by (unfold writes; now rewrite !map_length, le_length).
  rewrite EL. clear EL.
  destruct (k1 - 4)%nat as [|k2]; [cbn [firstn fold_left f_bytes]; exact (prefix_reads ch sps z all 0 Hc Hs Hz ltac:(lia) Ha Hl)|].
  cbn [firstn app]. rewrite Fseek_cons. cbn [f_bytes].
  change (map (fun b => Fwrite [b]) (le 4 (4 * lenN all))) with (map (fun b => Fwrite ((fun c => [c]) b)) (le 4 (4 * lenN all))).
  rewrite <- (map_map (fun c => [c]) Fwrite). fold (writes (map (fun c : N => [c]) (le 4 (4 * lenN all)))).
  rewrite firstn_writes, firstn_map.
  assert (L2 : (length (firstn k2 (le 4 (4 * lenN all))) <= length (le 4 0))%nat)
    by (rewrite firstn_length, !le_length; lia).
  assert (Ei : image ch sps (le 4 z) (le 4 0) (samples_bytes all)
             = (riff_id ++ le 4 z ++ head2 ch sps) ++ le 4 0 ++ samples_bytes all)
    by (unfold image; rewrite <- !app_assoc; reflexivity).
  rewrite Ei.
  replace (File ((riff_id ++ le 4 z ++ head2 ch sps) ++ le 4 0 ++ samples_bytes all) 40)
    with (File ((riff_id ++ le 4 z ++ head2 ch sps) ++ le 4 0 ++ samples_bytes all) (lenN (riff_id ++ le 4 z ++ head2 ch sps)))
    by (f_equal; rewrite !lenN_app, lenN_le, lenN_head2; reflexivity).
  rewrite run_over by exact L2. cbn [f_bytes].
  assert (Zd : exists m, m <= lenN all /\
    firstn k2 (le 4 (4 * lenN all)) ++ skipn (length (firstn k2 (le 4 (4 * lenN all)))) (le 4 0) = le 4 (4 * m)).
  { rewrite firstn_length, le_length. destruct (Nat.leb_spec k2 4) as [QL|QL].
    - rewrite Nat.min_l by exact QL. apply torn_size; [exact Hl|exact QL].
    - rewrite Nat.min_r by lia. rewrite (firstn_all2 (le 4 (4 * lenN all))) by (rewrite le_length; lia).
      pose proof (torn_size 4 (lenN all) Hl (le_n 4)) as M.
      rewrite (firstn_all2 (le 4 (4 * lenN all))) in M by (rewrite le_length; lia). exact M. }
  destruct Zd as (m & Hm & Em).
  match goal with |- Q ?b =>
    assert (Eb : b = image ch sps (le 4 z) (le 4 (4 * m)) (samples_bytes all))
      by (rewrite <- Em; unfold image; rewrite <- !app_assoc; reflexivity); rewrite Eb end.
  exact (prefix_reads ch sps z all m Hc Hs Hz Hm Ha Hl).
Qed.

(** ** opening always ends *)
Lemma fread_facts f n c f' : fread_exactly f n = Some (c, f') ->
  f_bytes f' = f_bytes f /\ f_pos f' = f_pos f + n /\ lenN c = n /\ n <= lenN (f_bytes f) - f_pos f.
Proof.
  unfold fread_exactly, fread. destruct (N.eqb_spec (lenN (takeN n (dropN (f_pos f) (f_bytes f)))) n) as [E|E]; [|discriminate].
  intros H. inversion H; subst; clear H. cbn [f_bytes f_pos]. rewrite E.
  split; [reflexivity|]. split; [reflexivity|]. split; [reflexivity|].
  rewrite lenN_takeN, lenN_dropN in E. lia.
Qed.
Lemma header_facts f id s p f' : chunk_header f = Some (id, s, p, f') ->
  f_bytes f' = f_bytes f /\ f_pos f' = f_pos f + 8 /\ f_pos f + 8 <= lenN (f_bytes f).
Proof.
  unfold chunk_header. destruct (fread_exactly f 4) as [[a f1]|] eqn:E1; [|discriminate]. cbn [bind snd].
  destruct (fread_exactly f1 4) as [[b f2]|] eqn:E2; [|discriminate]. cbn [bind fst snd].
  intros H. inversion H; subst; clear H.
  destruct (fread_facts _ _ _ _ E1) as (B1 & P1 & L1 & N1). destruct (fread_facts _ _ _ _ E2) as (B2 & P2 & L2 & N2).
  rewrite B2, P2, B1, P1 in *. repeat split; lia.
Qed.
Lemma find_fmt_fuel fuel : forall f rp, lenN (f_bytes f) - f_pos f < 8 * N.of_nat fuel ->
  find_fmt fuel f rp <> None.
Proof.
  induction fuel as [|fuel IH]; intros f rp H; [lia|]. cbn [find_fmt].
  destruct (chunk_header f) as [[[[id s] p] f1]|] eqn:E; [|discriminate].
  destruct (header_facts _ _ _ _ _ E) as (B1 & P1 & N1).
  destruct (bytes_eqb id fmt_id); [discriminate|]. apply IH. unfold seek_forward. cbn [f_bytes f_pos].
  rewrite B1, P1. lia.
Qed.
Lemma find_fmt_bytes fuel : forall f rp s p f' rp', find_fmt fuel f rp = Some (Some (s, p, f', rp')) ->
  f_bytes f' = f_bytes f.
Proof.
  induction fuel as [|fuel IH]; intros f rp s p f' rp'; [discriminate|]. cbn [find_fmt].
  destruct (chunk_header f) as [[[[id s1] p1] f1]|] eqn:E; [|discriminate].
  destruct (header_facts _ _ _ _ _ E) as (B1 & P1 & N1).
  destruct (bytes_eqb id fmt_id); [intros H; inversion H; subst; exact B1|].
  intros H. rewrite (IH _ _ _ _ _ _ H). unfold seek_forward. cbn [f_bytes]. exact B1.
Qed.
Lemma find_data_fuel fuel : forall f rp, lenN (f_bytes f) - f_pos f < 8 * N.of_nat fuel ->
  find_data fuel f rp <> None.
Proof.
  induction fuel as [|fuel IH]; intros f rp H; [lia|]. cbn [find_data].
  destruct (chunk_header f) as [[[[id s] p] f1]|] eqn:E; [|discriminate].
  destruct (header_facts _ _ _ _ _ E) as (B1 & P1 & N1).
  destruct (bytes_eqb id data_id); [discriminate|].
  destruct (bytes_eqb id fact_id).
  - destruct (fread_exactly f1 4) as [[c f2]|] eqn:E2; [|discriminate].
    destruct (fread_facts _ _ _ _ E2) as (B2 & P2 & _).
    apply IH. unfold seek_forward. cbn [f_bytes f_pos]. rewrite B2, P2, B1, P1. lia.
  - apply IH. unfold seek_forward. cbn [f_bytes f_pos]. rewrite B1, P1. lia.
Qed.
Lemma fseek_bytes f o f' : fseek_cur f o = Some f' -> f_bytes f' = f_bytes f.
Proof. unfold fseek_cur, fseek_set. destruct (_ <? 0)%Z; [discriminate|]. intros H. inversion H. reflexivity. Qed.
Lemma bind_some {A B} (x : option A) (g : A -> option B) y : bind x g = Some y -> exists a, x = Some a /\ g a = Some y.
Proof. destruct x as [a|]; cbn; [eauto|discriminate]. Qed.
Lemma read_fmt_bytes s p f rp m f' rp' : read_fmt s p f rp = Some (m, f', rp') -> f_bytes f' = f_bytes f.
Proof.
  unfold read_fmt. intros H.
  apply bind_some in H as ([a fa] & Ea & H). cbn [fst snd] in H.
  destruct (fread_facts _ _ _ _ Ea) as (Ba & _).
  apply bind_some in H as ([[sub fe] re] & Ee & H). cbn [fst snd] in H.
  apply bind_some in H as ([fp rq] & Ep & H). cbn [fst snd] in H. inversion H; subst; clear H.
  assert (Be : f_bytes fe = f_bytes f).
  { destruct (16 <? s); [|inversion Ee; subst; exact Ba].
    apply bind_some in Ee as ([c fc] & Ec & Ee). cbn [fst snd] in Ee.
    destruct (fread_facts _ _ _ _ Ec) as (Bc & _).
    apply bind_some in Ee as ([[x fx] rx] & Ex & Ee). cbn [fst snd] in Ee.
    apply bind_some in Ee as (g & Eg & Ee). inversion Ee; subst; clear Ee.
    apply fseek_bytes in Eg. rewrite Eg.
    destruct (0 <? unle c); [|inversion Ex; subst; rewrite Bc; exact Ba].
    destruct (unle (takeN 2 a) =? 65534).
    - destruct (negb (unle c =? 22)); [discriminate|].
      apply bind_some in Ex as ([g1 fg] & Eg1 & Ex). cbn [fst snd] in Ex. inversion Ex; subst; clear Ex.
      destruct (fread_facts _ _ _ _ Eg1) as (Bg & _). rewrite Bg, Bc. exact Ba.
    - apply bind_some in Ex as (g1 & Eg1 & Ex). inversion Ex; subst; clear Ex.
      apply fseek_bytes in Eg1. rewrite Eg1, Bc. exact Ba. }
  destruct (0 <? p).
  - apply bind_some in Ep as (g & Eg & Ep). inversion Ep; subst; clear Ep. apply fseek_bytes in Eg. now rewrite Eg.
  - inversion Ep; subst; clear Ep. exact Be.
Qed.
Lemma open_ends bytes : wr_open bytes <> NoFuel.
Proof.
  unfold wr_open.
  destruct (fread_exactly (File bytes 0) 4) as [[a f1]|] eqn:E1; [|discriminate].
  destruct (fread_facts _ _ _ _ E1) as (B1 & P1 & _). cbn [f_bytes f_pos] in B1, P1.
  destruct (negb (bytes_eqb a riff_id)); [destruct (bytes_eqb a _); discriminate|].
  destruct (fread_exactly f1 4) as [[b f2]|] eqn:E2; [|discriminate].
  destruct (fread_facts _ _ _ _ E2) as (B2 & P2 & _). rewrite B1 in B2.
  destruct (unle b <? 36); [discriminate|].
  destruct (fread_exactly f2 4) as [[c f3]|] eqn:E3; [|discriminate].
  destruct (fread_facts _ _ _ _ E3) as (B3 & P3 & _). rewrite B2 in B3.
  destruct (negb (bytes_eqb c wave_id)); [discriminate|].
  destruct (find_fmt (S (length bytes)) f3 12) as [[[[[s p] f4] r4]|]|] eqn:E4; [| discriminate |].
  2:{ exfalso. apply find_fmt_fuel in E4; [exact E4|]. rewrite B3. unfold lenN. lia. }
  apply find_fmt_bytes in E4 as B4. rewrite B3 in B4.
  destruct (read_fmt s p f4 r4) as [[[m f5] r5]|] eqn:E5; [|discriminate].
  apply read_fmt_bytes in E5 as B5. rewrite B4 in B5.
  destruct (_ || _); [discriminate|].
  destruct (find_data (S (length bytes)) f5 r5) as [[[[d f6] r6]|]|] eqn:E6; [| discriminate |].
  2:{ exfalso. apply find_data_fuel in E6; [exact E6|]. rewrite B5. unfold lenN. lia. }
  destruct (_ =? 0); [discriminate|]. destruct (_ || _); discriminate.
Qed.

(** ** files shorter or longer than their header says *)
Lemma image_raw ch sps rs d payload :
  image ch sps (le 4 rs) (le 4 d) payload = float_wav_raw rs ch sps ((32 * sps * ch) mod 2 ^ 32 / 8) [] [] [] d payload.
Proof.
  unfold image, float_wav_raw, head2, chunk. cbn [map concat app fst snd]. rewrite app_nil_r, lenN_float_format.
  rewrite <- !app_assoc. reflexivity.
Qed.
Lemma open_image ch sps rs d payload :
  1 <= ch < 2 ^ 14 -> 1 <= sps < 2 ^ 32 -> 36 <= rs < 2 ^ 32 -> d < 2 ^ 32 -> lenN payload < 2 ^ 62 ->
  exists B dp, wr_open (image ch sps (le 4 rs) (le 4 d) payload)
      = Opened (Reader (File B dp) 3 sps ch 4 d (d / 4) dp d) /\
    dropN dp B = payload /\ dp < 2 ^ 31.
Proof.
  intros. rewrite image_raw. apply open_gen; auto; [left; reflexivity|reflexivity].
Qed.
Lemma truncated ch sps rs total samples n :
  1 <= ch < 2 ^ 14 -> 1 <= sps < 2 ^ 32 -> 36 <= rs < 2 ^ 32 ->
  Forall is_sample samples -> lenN samples < total -> 4 * total < 2 ^ 32 ->
  lenN samples < n < 2 ^ 32 ->
  exists r r', wr_open (image ch sps (le 4 rs) (le 4 (4 * total)) (samples_bytes samples)) = Opened r /\
    wr_length r = total /\ wr_read r n = Some (samples, r') /\ wr_position r' = lenN samples /\
    forall k, wr_read r' k = Some ([], r').
Proof.
  intros Hc Hs Hr Hsm Ht Htt Hn. change (2 ^ 32) with 4294967296 in *.
  assert (L : lenN (samples_bytes samples) < 2 ^ 62)
    by (rewrite lenN_samples; change (2 ^ 62) with 4611686018427387904; lia).
  destruct (open_image ch sps rs (4 * total) (samples_bytes samples) Hc Hs Hr Htt L) as (B & dp & E & D & Hd).
  eexists. eexists. split; [exact E|].
  replace (4 * total / 4) with total by (rewrite N.mul_comm, N.div_mul; lia).
  split; [reflexivity|].
  assert (Er : wr_read (Reader (File B dp) 3 sps ch 4 (4 * total) total dp (4 * total)) n =
    Some (samples, Reader (File B (dp + 4 * lenN samples)) 3 sps ch 4 (4 * total - 4 * lenN samples) total dp (4 * total))).
  { unfold wr_read. cbn [r_tag r_bps r_remaining r_file r_rate r_ch r_total r_datapos r_datasize].
    change (2 ^ 32) with 4294967296. rewrite (N.mod_small n) by lia. destruct (N.eqb_spec n 0); [lia|].
    change ((3 =? 3) && (4 =? 4)) with true. cbn iota. unfold fread. cbn [f_bytes f_pos].
    rewrite D, takeN_all by (rewrite lenN_samples; lia). rewrite lenN_samples.
    rewrite <- (app_nil_r (samples_bytes samples)), bytes_samples_ok; [reflexivity|exact Hsm|rewrite lenN_nil; lia]. }
  split; [exact Er|]. split.
  - unfold wr_position. cbn [r_total r_remaining r_bps].
    replace (4 * total - 4 * lenN samples) with ((total - lenN samples) * 4) by lia. rewrite N.div_mul by lia.
    rewrite sub64_id by (try (change (2 ^ 64) with 18446744073709551616); lia). lia.
  - intros k. unfold wr_read. cbn [r_tag r_bps r_remaining r_file r_rate r_ch r_total r_datapos r_datasize].
    destruct (k mod 2 ^ 32 =? 0); [reflexivity|].
    change ((3 =? 3) && (4 =? 4)) with true. cbn iota. unfold fread. cbn [f_bytes f_pos].
    assert (D2 : dropN (dp + 4 * lenN samples) B = []).
    { rewrite dropN_plus, D, <- lenN_samples. rewrite <- (app_nil_r (samples_bytes samples)) at 2. apply dropN_app. }
    rewrite D2. unfold takeN. rewrite firstn_nil. rewrite lenN_nil, N.add_0_r, N.sub_0_r. reflexivity.
Qed.
Lemma oversize ch sps bufs :
  1 <= ch < 2 ^ 14 -> 1 <= sps < 2 ^ 32 -> Forall (fun b => lenN b < 2 ^ 32) bufs ->
  2 ^ 30 <= lenN (concat bufs) < 2 ^ 59 ->
  exists r, wr_open (disk (ww_close (snd (write_all (ww_open ch sps) bufs)))) = Opened r /\
    wr_length r = 2 ^ 30 - 1 /\ forall t, wr_seek r t = None.
Proof.
  intros Hc Hs Hb Hl. change (2 ^ 30) with 1073741824 in *. change (2 ^ 59) with 576460752303423488 in Hl.
  rewrite (disk_closed ch sps bufs Hc Hs Hb) by (change (2 ^ 64) with 18446744073709551616; lia).
  assert (Er : riff_size (4 * lenN (concat bufs)) = 4294967295).
  { unfold riff_size. change (2 ^ 32 - 1 - 36) with 4294967259.
    destruct (N.leb_spec (4 * lenN (concat bufs)) 4294967259); [lia|reflexivity]. }
  assert (Ed : data_size (4 * lenN (concat bufs)) = 4294967295).
  { unfold data_size. change (2 ^ 32 - 1) with 4294967295.
    destruct (N.leb_spec (4 * lenN (concat bufs)) 4294967295); [lia|reflexivity]. }
  rewrite Er, Ed.
  assert (L : lenN (samples_bytes (concat bufs)) < 2 ^ 62)
    by (rewrite lenN_samples; change (2 ^ 62) with 4611686018427387904; lia).
  destruct (open_image ch sps 4294967295 4294967295 (samples_bytes (concat bufs)) Hc Hs ltac:(split; [discriminate|reflexivity])
    eq_refl L) as (B & dp & E & D & Hd).
  eexists. split; [exact E|]. split; [reflexivity|]. intros t. reflexivity.
Qed.
