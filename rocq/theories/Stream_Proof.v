(** Proofs for C53. *)
From Verif Require Import Common Stream_Model Stream_Spec.

Lemma lib_run_app a : forall l b, lib_run l (a ++ b) = do l' <- lib_run l a; lib_run l' b.
Proof.
  induction a as [|c a IH]; intros l b; cbn; [reflexivity|]. destruct (lib_step l c); cbn; [apply IH|reflexivity].
Qed.
Lemma run_app a : forall w b, run w (a ++ b) = do w' <- run w a; run w' b.
Proof.
  induction a as [|c a IH]; intros w b; cbn; [reflexivity|]. destruct (step w c); cbn; [apply IH|reflexivity].
Qed.
Lemma upd_same {A} (f : handle -> A) h x : upd f h x h = x.
Proof. unfold upd. now rewrite Nat.eqb_refl. Qed.
Lemma upd_other {A} (f : handle -> A) h x k : k <> h -> upd f h x k = f k.
Proof. intros H. unfold upd. apply Nat.eqb_neq in H. now rewrite H. Qed.
Lemma set_slot_same l : forall i x y, nth_error l i = Some y -> nth_error (set_slot l i x) i = Some x.
Proof. induction l as [|a l IH]; intros [|i] x y H; cbn in *; try discriminate; [reflexivity|]. eapply IH, H. Qed.
Lemma set_slot_other l : forall i j x, i <> j -> nth_error (set_slot l i x) j = nth_error l j.
Proof. induction l as [|a l IH]; intros [|i] [|j] x H; cbn; try reflexivity; try congruence. apply IH. congruence. Qed.
Lemma set_slot_length l : forall i x, length (set_slot l i x) = length l.
Proof. induction l as [|a l IH]; intros [|i] x; cbn; try reflexivity. now rewrite IH. Qed.
Lemma nth_snoc {A} (l : list A) x i : nth_error (l ++ [x]) i =
  if i =? length l then Some x else nth_error l i.
Proof.
  destruct (Nat.eqb_spec i (length l)) as [->|H].
  - rewrite nth_error_app2, Nat.sub_diag by lia. reflexivity.
  - destruct (Nat.ltb_spec i (length l)).
    + now rewrite nth_error_app1.
    + rewrite nth_error_app2 by lia. destruct (i - length l) as [|k] eqn:E; [lia|]. cbn.
      destruct k; cbn; symmetry; apply nth_error_None; lia.
Qed.

(** The state of the library mirrors the objects. *)
Definition mirrors (w : world) (L : lib) : Prop :=
  l_on L = w_init w /\
  (forall h a r, l_stream L h = Some (a, r) ->
     (h < w_next w)%nat /\ exists s, exists_as w (a_user a) s /\ s_impl s = Some h /\
       s_in s = a_in a /\ s_out s = a_out a /\ a_cb a = choose_cb (a_in a) (a_out a)) /\
  (forall i s h, exists_as w i s -> s_impl s = Some h ->
     w_init w = true /\ exists a r, l_stream L h = Some (a, r) /\ a_user a = i) /\
  (w_objs w <> [] -> w_init w = true).

Lemma exists_lt w i s : exists_as w i s -> i < length (w_objs w).
Proof. intros [H|H]; apply nth_error_Some; rewrite H; discriminate. Qed.
Lemma exists_inj w i s s' : exists_as w i s -> exists_as w i s' -> s = s'.
Proof. intros [H|H] [H'|H']; rewrite H in H'; inversion H'; reflexivity. Qed.

(** calls on a live stream *)
Lemma meth_ok w L i s m : mirrors w L -> exists_as w i s ->
  exists L', lib_run L (w_trace (run_meth m s (World (w_init w) (w_objs w) (w_next w) []))) = Some L' /\
    mirrors (run_meth m s w) L' /\
    (forall h a r, l_stream L' h = Some (a, r) -> 
       (exists r0, l_stream L h = Some (a, r0) /\ (a_user a <> i -> r = r0) /\
         (a_user a = i -> r = match m with Start => true | Stop => false | _ => r0 end))).
Proof.
  intros (M1 & M2 & M3 & M4) E. unfold run_meth. destruct (s_impl s) as [h|] eqn:Es.
  2:{ exists L. split; [reflexivity|]. split; [split; auto|].
      intros h a r H. exists r. split; [exact H|]. split; [reflexivity|].
      intros Eu. exfalso. destruct (M2 h a r H) as (_ & s' & E' & Es' & _). rewrite Eu in E'.
      rewrite (exists_inj _ _ _ _ E' E) in Es'. congruence. }
  destruct (M3 i s h E Es) as (Ei & a0 & r0 & Hl & Hu).
  assert (On : l_on L = true) by (rewrite M1; exact Ei).
  assert (Same : forall k a r, l_stream L k = Some (a, r) -> a_user a = i -> k = h).
  { intros k a r H Eu. destruct (M2 k a r H) as (_ & s' & E' & Es' & _). rewrite Eu in E'.
    rewrite (exists_inj _ _ _ _ E' E) in Es'. congruence. }
  assert (Q : exists L', lib_run L [meth_call m h] = Some L' /\ l_on L' = true /\
     (forall k, k <> h -> l_stream L' k = l_stream L k) /\
     l_stream L' h = Some (a0, match m with Start => true | Stop => false | _ => r0 end)).
  { destruct m; cbn [meth_call lib_run lib_step]; rewrite On, Hl; cbn [bind];
      eexists; (split; [reflexivity|]); cbn [l_on l_stream]; (split; [auto|]);
      (split; [intros k Hk; first [now rewrite upd_other | reflexivity] | first [now rewrite upd_same | exact Hl]]). }
  destruct Q as (L' & EL & On' & Ho & Hh). exists L'. split; [exact EL|]. split.
  - split; [cbn; congruence|]. split; [|split].
    + intros k a r H. destruct (Nat.eq_dec k h) as [->|Nk].
      * rewrite Hh in H. inversion H; subst. apply (M2 h a r0 Hl).
      * rewrite Ho in H by exact Nk. apply (M2 k a r H).
    + intros j s' k Ej Ek. destruct (M3 j s' k Ej Ek) as (I' & a & r & H & Eu). split; [exact I'|].
      destruct (Nat.eq_dec k h) as [->|Nk].
      * rewrite Hl in H. inversion H; subst. eauto.
      * exists a, r. rewrite Ho by exact Nk. auto.
    + exact M4.
  - intros k a r H. destruct (Nat.eq_dec k h) as [->|Nk].
    + rewrite Hh in H. inversion H; subst. exists r0. split; [exact Hl|]. split; [congruence|reflexivity].
    + rewrite Ho in H by exact Nk. exists r. split; [exact H|]. split; [reflexivity|].
      intros Eu. exfalso. apply Nk. eapply Same; eauto.
Qed.

Definition restless (acts : list act) (i : nat) : Prop :=
  exists l1 l2, acts = l1 ++ Call i Start :: l2 /\ ~ In (Call i Stop) l2.
Lemma restless_snoc acts i a : restless acts i -> a <> Call i Stop -> restless (acts ++ [a]) i.
Proof.
  intros (l1 & l2 & -> & H) N. exists l1, (l2 ++ [a]). split; [rewrite <- app_assoc; reflexivity|].
  intros [I|[I|[]]]%in_app_or; auto.
Qed.

Lemma init_ok w L : mirrors w L -> exists L', 
  lib_run L (if w_init w then [] else [PaInitialize]) = Some L' /\ mirrors (portaudio_init w) L' /\
  l_stream L' = l_stream L /\ l_on L' = true /\
  w_trace (portaudio_init w) = w_trace w ++ (if w_init w then [] else [PaInitialize]) /\
  w_objs (portaudio_init w) = w_objs w /\ w_init (portaudio_init w) = true /\ w_next (portaudio_init w) = w_next w.
Proof.
  intros M. pose proof M as (M1 & M2 & M3 & M4). unfold portaudio_init. destruct (w_init w) eqn:Ei.
  - exists L. cbn [lib_run]. rewrite app_nil_r. split; [reflexivity|]. split; [exact M|]. auto 10.
  - exists (Lib true (l_stream L)). cbn. rewrite M1. split; [reflexivity|].
    assert (N0 : w_objs w = []) by (destruct (w_objs w); [reflexivity|discriminate M4; discriminate]).
    split; [|repeat split; reflexivity].
    split; [reflexivity|]. split; [|split].
    + intros h a r H. cbn in *. apply (M2 h a r H).
    + intros i s h E Es. exfalso. apply exists_lt in E. cbn in E. rewrite N0 in E. cbn in E. lia.
    + reflexivity.
Qed.

Lemma invariant acts : forall w, run start_world acts = Some w ->
  exists L, lib_run lib_start (w_trace w) = Some L /\ mirrors w L /\
    (forall h a, l_stream L h = Some (a, true) -> restless acts (a_user a)).
Proof.
  induction acts as [|a acts IH] using rev_ind; intros w H.
  - inversion H; subst. exists lib_start. split; [reflexivity|]. split; [|discriminate].
    split; [reflexivity|]. split; [discriminate|]. split; [|intros NN; elim NN; reflexivity].
    intros i s h E. apply exists_lt in E. cbn in E. lia.
  - rewrite run_app in H. destruct (run start_world acts) as [w0|] eqn:E0; [|discriminate]. cbn in H.
    destruct (step w0 a) as [w1|] eqn:E1; [|discriminate]. cbn in H. inversion H; subst; clear H.
    destruct (IH w0 eq_refl) as (L & EL & M & R). clear IH.
    destruct a as [q r|i m|i|i]; cbn [step] in E1.
    + (* New *)
      unfold make_stream in E1.
      destruct (init_ok w0 L M) as (L1 & EL1 & M1 & S1 & On1 & T1 & O1 & I1 & N1).
      rewrite O1, I1, N1, T1 in E1.
      match type of E1 with bind ?x _ = _ => destruct x as [sps|]; [|discriminate] end. cbn [bind] in E1.
      match type of E1 with bind ?x _ = _ => destruct x as [u|]; [|discriminate] end. cbn [bind] in E1.
      inversion E1; subst; clear E1. cbn [w_trace].
      rewrite !lib_run_app, EL. cbn [bind]. rewrite EL1. cbn [bind lib_run].
      set (args := OpenArgs _ _ _ _ _ _ _).
      destruct M1 as (P1 & P2 & P3 & P4).
      destruct (r_error r) as [e|]; cbn [s_impl].
      * exists L1. cbn [lib_step]. rewrite On1. cbn [bind]. split; [reflexivity|]. split.
        -- split; [cbn; congruence|]. split; [|split].
           ++ intros h a rr H. destruct (P2 h a rr H) as (Hlt & s & E & Q). split; [cbn; congruence|].
              exists s. split; [|exact Q]. unfold exists_as in *. rewrite O1 in E. cbn [w_objs].
              assert (NE : a_user a <> length (w_objs w0)).
              { intros Eq. destruct E as [E|E]; assert (a_user a < length (w_objs w0)) by (apply nth_error_Some; rewrite E; discriminate); lia. }
              rewrite nth_snoc. apply Nat.eqb_neq in NE. rewrite NE. exact E.
           ++ intros j s h E Es. split; [reflexivity|]. unfold exists_as in E. cbn [w_objs] in E. rewrite nth_snoc in E.
              destruct (j =? length (w_objs w0)).
              ** destruct E as [E|E]; inversion E; subst. discriminate.
              ** apply (P3 j s h); [|exact Es]. unfold exists_as. rewrite O1. exact E.
           ++ reflexivity.
        -- intros h a H. rewrite S1 in H. apply restless_snoc; [exact (R h a H)|discriminate].
      * assert (F : l_stream L1 (w_next w0) = None).
        { destruct (l_stream L1 (w_next w0)) as [[a rr]|] eqn:F; [|reflexivity].
          destruct (P2 _ _ _ F) as (Hlt & _). rewrite N1 in Hlt. lia. }
        exists (Lib true (upd (l_stream L1) (w_next w0) (Some (args, false)))).
        cbn [lib_step]. rewrite On1, F. cbn [bind]. split; [reflexivity|]. split.
        -- split; [reflexivity|]. split; [|split].
           ++ intros h a rr H. cbn [l_stream] in H. cbn [w_next]. destruct (Nat.eq_dec h (w_next w0)) as [->|Nh].
              ** rewrite upd_same in H. inversion H; subst. split; [lia|].
                 eexists. split; [left; cbn [w_objs a_user args]; rewrite nth_snoc, Nat.eqb_refl; reflexivity|].
                 repeat split.
              ** rewrite upd_other in H by exact Nh. destruct (P2 h a rr H) as (Hlt & s & E & Q).
                 rewrite N1 in Hlt. split; [lia|].
                 exists s. split; [|exact Q]. unfold exists_as in *. rewrite O1 in E. cbn [w_objs].
                 assert (NE : a_user a <> length (w_objs w0)).
                 { intros Eq. destruct E as [E|E]; assert (a_user a < length (w_objs w0)) by (apply nth_error_Some; rewrite E; discriminate); lia. }
                 rewrite nth_snoc. apply Nat.eqb_neq in NE. rewrite NE. exact E.
           ++ intros j s h E Es. split; [reflexivity|]. unfold exists_as in E. cbn [w_objs] in E. rewrite nth_snoc in E.
              cbn [l_stream]. destruct (Nat.eqb_spec j (length (w_objs w0))) as [->|Nj].
              ** destruct E as [E|E]; inversion E; subst. cbn in Es. inversion Es; subst. rewrite upd_same.
                 exists args, false. split; reflexivity.
              ** destruct (P3 j s h) as (_ & a & rr & H & Eu); [unfold exists_as; rewrite O1; exact E|exact Es|].
                 exists a, rr. split; [|exact Eu]. rewrite upd_other; [exact H|]. intros ->. congruence.
           ++ reflexivity.
        -- intros h a H. cbn [l_stream] in H. destruct (Nat.eq_dec h (w_next w0)) as [->|Nh].
           ++ rewrite upd_same in H. inversion H.
           ++ rewrite upd_other, S1 in H by exact Nh. apply restless_snoc; [exact (R h a H)|discriminate].
    + (* Call *)
      destruct (nth_error (w_objs w0) i) as [[s|s|]|] eqn:En; try discriminate. inversion E1; subst; clear E1.
      destruct (meth_ok w0 L i s m M (or_introl En)) as (L' & EL' & M' & R').
      exists L'. split; [|split; [exact M'|]].
      * unfold run_meth in *. destruct (s_impl s) as [h|]; cbn [say w_trace app] in *.
        -- rewrite lib_run_app, EL. exact EL'.
        -- rewrite EL. exact EL'.
      * intros h a H. destruct (R' h a true H) as (r0 & H0 & H1 & H2).
        destruct (Nat.eq_dec (a_user a) i) as [Eu|Nu].
        -- specialize (H2 Eu). destruct m; try discriminate.
           ++ exists acts, []. rewrite Eu. split; [reflexivity|intros []].
           ++ subst r0. apply restless_snoc; [exact (R h a H0)|discriminate].
           ++ subst r0. apply restless_snoc; [exact (R h a H0)|discriminate].
           ++ subst r0. apply restless_snoc; [exact (R h a H0)|discriminate].
           ++ subst r0. apply restless_snoc; [exact (R h a H0)|discriminate].
           ++ subst r0. apply restless_snoc; [exact (R h a H0)|discriminate].
        -- rewrite <- (H1 Nu) in H0. apply restless_snoc; [exact (R h a H0)|congruence].
    + (* UserDtor *)
      destruct (nth_error (w_objs w0) i) as [[s|s|]|] eqn:En; try discriminate. inversion E1; subst; clear E1.
      exists L. split; [exact EL|]. destruct M as (M1 & M2 & M3 & M4).
      assert (Ex : forall j s', exists_as (put w0 i (UserPartGone s)) j s' <-> exists_as w0 j s').
      { intros j s'. unfold exists_as, put. cbn [w_objs]. destruct (Nat.eq_dec i j) as [<-|Nj].
        - rewrite (set_slot_same _ _ _ _ En), En. split; intros [Q|Q]; inversion Q; subst; auto.
        - rewrite set_slot_other by exact Nj. reflexivity. }
      split.
      * split; [exact M1|]. split; [|split].
        -- intros h a r H. destruct (M2 h a r H) as (Hlt & s' & E & Q). split; [exact Hlt|].
           exists s'. split; [apply Ex, E|exact Q].
        -- intros j s' h E Es. apply Ex in E. exact (M3 j s' h E Es).
        -- intros _. cbn. apply M4. intros Z. rewrite Z in En. destruct i; discriminate.
      * intros h a H. apply restless_snoc; [exact (R h a H)|discriminate].
    + (* BaseDtor *)
      destruct (nth_error (w_objs w0) i) as [[s|s|]|] eqn:En; try discriminate. inversion E1; subst; clear E1.
      destruct M as (M1 & M2 & M3 & M4).
      assert (Ex : forall j s' tr, exists_as (put (World (w_init w0) (w_objs w0) (w_next w0) tr) i Gone) j s' <-> exists_as w0 j s' /\ j <> i).
      { intros j s' tr. unfold exists_as, put. cbn [w_objs]. destruct (Nat.eq_dec i j) as [<-|Nj].
        - rewrite (set_slot_same _ _ _ _ En), En. split; [intros [Q|Q]; inversion Q|intros [_ Q]; congruence].
        - rewrite set_slot_other by exact Nj. split; [intros Q; split; [exact Q|congruence]|tauto]. }
      assert (Ew : forall w, w = put (base_dtor s w0) i Gone -> w = put (World (w_init w0) (w_objs w0) (w_next w0) (w_trace w)) i Gone).
      { intros w ->. unfold base_dtor, put, say. destruct (s_impl s); reflexivity. }
      assert (Ei : w_init w0 = true) by (apply M4; intros Z; rewrite Z in En; destruct i; discriminate).
      unfold base_dtor in *. destruct (s_impl s) as [h|] eqn:Es.
      * destruct (M3 i s h (or_intror En) Es) as (_ & a0 & r0 & Hl & Hu).
        exists (Lib true (upd (l_stream L) h None)).
        split; [|split].
        -- cbn [put say w_trace]. rewrite lib_run_app, EL. cbn [bind lib_run lib_step].
           rewrite M1, Ei, Hl. reflexivity.
        -- rewrite (Ew _ eq_refl). generalize (w_trace (put (say w0 (PaClose h)) i Gone)). intros tr.
           split; [cbn; congruence|]. split; [|split].
           ++ intros k a r H. cbn [l_stream] in H. destruct (Nat.eq_dec k h) as [->|Nk]; [rewrite upd_same in H; discriminate|].
              rewrite upd_other in H by exact Nk. destruct (M2 k a r H) as (Hlt & s' & E & Q). split; [exact Hlt|].
              exists s'. split; [|exact Q]. apply Ex. split; [exact E|]. intros Eu. rewrite Eu in E.
              rewrite (exists_inj _ _ _ _ E (or_intror En)) in Q. destruct Q as (Q & _). congruence.
           ++ intros j s' k E Ek. apply Ex in E as [E Nj]. destruct (M3 j s' k E Ek) as (I' & a & r & H & Eu).
              split; [exact I'|]. exists a, r. split; [|exact Eu]. cbn [l_stream].
              rewrite upd_other; [exact H|]. intros ->. rewrite Hl in H. inversion H; subst. congruence.
           ++ intros _. exact Ei.
        -- intros k a H. cbn [l_stream] in H. destruct (Nat.eq_dec k h) as [->|Nk]; [rewrite upd_same in H; discriminate|].
           rewrite upd_other in H by exact Nk. apply restless_snoc; [exact (R k a H)|discriminate].
      * exists L. split; [exact EL|]. split.
        -- rewrite (Ew _ eq_refl). generalize (w_trace (put w0 i Gone)). intros tr.
           split; [exact M1|]. split; [|split].
           ++ intros k a r H. destruct (M2 k a r H) as (Hlt & s' & E & Q). split; [exact Hlt|].
              exists s'. split; [|exact Q]. apply Ex. split; [exact E|]. intros Eu. rewrite Eu in E.
              rewrite (exists_inj _ _ _ _ E (or_intror En)) in Q. destruct Q as (Q & _). congruence.
           ++ intros j s' k E Ek. apply Ex in E as [E Nj]. exact (M3 j s' k E Ek).
           ++ intros _. exact Ei.
        -- intros k a H. apply restless_snoc; [exact (R k a H)|discriminate].
Qed.

(** ** callbacks find their object *)
Lemma last_of_two {A} (x y : A) : x <> y -> forall l1 k1 l2 k2,
  l1 ++ x :: l2 = k1 ++ y :: k2 -> ~ In y l2 -> ~ In x k2 -> False.
Proof.
  intros N. induction l1 as [|a l1 IH]; intros [|b k1] l2 k2 E Hy Hx; cbn in E; inversion E; subst.
  - congruence.
  - apply Hy, in_or_app. right. now left.
  - apply Hx, in_or_app. right. now left.
  - eapply IH; eauto.
Qed.
Lemma start_before {A} (x y : A) : x <> y -> forall l1 before l2 after,
  l1 ++ x :: l2 = before ++ y :: after -> ~ In x after ->
  exists m, before = l1 ++ x :: m /\ l2 = m ++ y :: after.
Proof.
  intros N. induction l1 as [|a l1 IH]; intros [|b before] l2 after E Hx; cbn in E; inversion E; subst.
  - congruence.
  - exists before. auto.
  - exfalso. apply Hx, in_or_app. right. now left.
  - destruct (IH before l2 after H1 Hx) as (m & -> & ->). exists m. auto.
Qed.
Definition not_alive (w : world) (i : nat) : Prop :=
  exists x, nth_error (w_objs w) i = Some x /\ forall s, x <> Alive s.
Lemma run_meth_objs m s w : w_objs (run_meth m s w) = w_objs w.
Proof. unfold run_meth. destruct (s_impl s); reflexivity. Qed.
Lemma base_dtor_objs s w : w_objs (base_dtor s w) = w_objs w.
Proof. unfold base_dtor. destruct (s_impl s); reflexivity. Qed.
Lemma make_objs q r w w' : make_stream q r w = Some w' -> exists s, w_objs w' = w_objs w ++ [Alive s].
Proof.
  unfold make_stream.
  assert (O : w_objs (portaudio_init w) = w_objs w) by (unfold portaudio_init; destruct (w_init w); reflexivity).
  rewrite O. intros H.
  match type of H with bind ?x _ = _ => destruct x; [|discriminate] end. cbn [bind] in H.
  match type of H with bind ?x _ = _ => destruct x; [|discriminate] end. cbn [bind] in H.
  inversion H; subst. cbn [w_objs]. eauto.
Qed.
Lemma step_dead w a w' i : step w a = Some w' -> not_alive w i -> not_alive w' i /\ forall m, a <> Call i m.
Proof.
  intros H (x & Ex & Nx). unfold not_alive. destruct a as [q r|j m|j|j]; cbn [step] in H.
  - destruct (make_objs _ _ _ _ H) as (s & E). rewrite E. split; [|discriminate]. exists x. split; [|exact Nx].
    rewrite nth_error_app1; [exact Ex|]. apply nth_error_Some. congruence.
  - destruct (nth_error (w_objs w) j) as [[s|s|]|] eqn:En; try discriminate. inversion H; subst.
    rewrite run_meth_objs. split; [eauto|]. intros m' Q. inversion Q; subst. rewrite En in Ex. inversion Ex; subst.
    eapply Nx. reflexivity.
  - destruct (nth_error (w_objs w) j) as [[s|s|]|] eqn:En; try discriminate. inversion H; subst. split; [|discriminate].
    cbn [put w_objs]. destruct (Nat.eq_dec j i) as [->|Nj].
    + exists (UserPartGone s). split; [eapply set_slot_same, En|discriminate].
    + rewrite set_slot_other by exact Nj. eauto.
  - destruct (nth_error (w_objs w) j) as [[s|s|]|] eqn:En; try discriminate. inversion H; subst. split; [|discriminate].
    cbn [put w_objs]. rewrite base_dtor_objs. destruct (Nat.eq_dec j i) as [->|Nj].
    + exists Gone. split; [eapply set_slot_same, En|discriminate].
    + rewrite set_slot_other by exact Nj. eauto.
Qed.
Lemma run_dead l : forall w w' i m, run w l = Some w' -> not_alive w i -> ~ In (Call i m) l.
Proof.
  induction l as [|a l IH]; intros w w' i m H D; [intros []|]. cbn in H.
  destruct (step w a) as [w1|] eqn:E; [|discriminate]. cbn in H.
  destruct (step_dead _ _ _ _ E D) as (D1 & Na). intros [Q|Q]; [exact (Na m Q)|exact (IH _ _ _ m H D1 Q)].
Qed.
Lemma step_gone w a w' i s : step w a = Some w' -> nth_error (w_objs w') i = Some (UserPartGone s) ->
  a = UserDtor i \/ nth_error (w_objs w) i = Some (UserPartGone s).
Proof.
  intros H E. destruct a as [q r|j m|j|j]; cbn [step] in H.
  - destruct (make_objs _ _ _ _ H) as (s' & E'). rewrite E', nth_snoc in E.
    destruct (i =? length (w_objs w)); [discriminate|auto].
  - destruct (nth_error (w_objs w) j) as [[s'|s'|]|] eqn:En; try discriminate. inversion H; subst.
    rewrite run_meth_objs in E. auto.
  - destruct (nth_error (w_objs w) j) as [[s'|s'|]|] eqn:En; try discriminate. inversion H; subst.
    cbn [put w_objs] in E. destruct (Nat.eq_dec j i) as [->|Nj]; [auto|]. rewrite set_slot_other in E by exact Nj. auto.
  - destruct (nth_error (w_objs w) j) as [[s'|s'|]|] eqn:En; try discriminate. inversion H; subst.
    cbn [put w_objs] in E. rewrite base_dtor_objs in E. destruct (Nat.eq_dec j i) as [->|Nj].
    + rewrite (set_slot_same _ _ _ _ En) in E. discriminate.
    + rewrite set_slot_other in E by exact Nj. auto.
Qed.
Lemma gone_when acts : forall w i s, run start_world acts = Some w ->
  nth_error (w_objs w) i = Some (UserPartGone s) ->
  exists before after, acts = before ++ UserDtor i :: after /\ forall m, ~ In (Call i m) after.
Proof.
  induction acts as [|a acts IH] using rev_ind; intros w i s H E.
  - inversion H; subst. destruct i; discriminate.
  - rewrite run_app in H. destruct (run start_world acts) as [w0|] eqn:E0; [|discriminate]. cbn in H.
    destruct (step w0 a) as [w1|] eqn:E1; [|discriminate]. cbn in H. inversion H; subst; clear H.
    destruct (step_gone _ _ _ _ _ E1 E) as [->|E'].
    + exists acts, []. split; [reflexivity|]. intros m [].
    + destruct (IH w0 i s eq_refl E') as (b & f & -> & N). exists b, (f ++ [a]).
      split; [rewrite <- app_assoc; reflexivity|]. intros m [Q|[Q|[]]]%in_app_or; [exact (N m Q)|].
      subst a. destruct (step_dead _ _ _ i E1) as (_ & Na); [exists (UserPartGone s); split; [exact E'|discriminate]|].
      exact (Na m eq_refl).
Qed.
Lemma callbacks_safe acts w L h a :
  run start_world acts = Some w -> stops_first acts ->
  lib_run lib_start (w_trace w) = Some L -> l_stream L h = Some (a, true) ->
  exists s, callback_object w (a_user a) = Some (Alive s) /\ s_impl s = Some h /\
    s_in s = a_in a /\ s_out s = a_out a /\ a_cb a = choose_cb (s_in s) (s_out s).
Proof.
  intros H S EL Hl. destruct (invariant acts w H) as (L' & EL' & (M1 & M2 & _) & R).
  rewrite EL in EL'. inversion EL'; subst L'. clear EL'.
  destruct (M2 h a true Hl) as (_ & s & E & Es & Ei & Eo & Ec). exists s.
  rewrite Ei, Eo. split; [|auto]. destruct E as [E|E]; [exact E|exfalso].
  destruct (gone_when acts w _ _ H E) as (before & after & Ea & N).
  destruct (R h a Hl) as (l1 & l2 & Er & Ns). rewrite Ea in Er.
  assert (D1 : Call (a_user a) Start <> UserDtor (a_user a)) by discriminate.
  destruct (start_before _ _ D1 l1 before l2 after (eq_sym Er) (N Start)) as (m & Eb & El).
  assert (Nm : ~ In (Call (a_user a) Stop) m) by (intros Q; apply Ns; rewrite El; apply in_or_app; auto).
  destruct (S _ _ _ Ea) as [(k1 & k2 & Ek & Nk)|Q].
  - assert (D2 : Call (a_user a) Start <> Call (a_user a) Stop) by discriminate.
    rewrite Eb in Ek. exact (last_of_two _ _ D2 _ _ _ _ Ek Nm Nk).
  - apply Q. rewrite Eb. apply in_or_app. right. now left.
Qed.

(** ** MIDI *)
Definition noisy (t : list pm_call) : list pm_call := filter (fun c => negb (closes_nothing c)) t.
Lemma mlib_run_app a : forall l b, mlib_run l (a ++ b) = do l' <- mlib_run l a; mlib_run l' b.
Proof.
  induction a as [|c a IH]; intros l b; cbn; [reflexivity|]. destruct (mlib_step l c); cbn; [apply IH|reflexivity].
Qed.
Lemma mrun_app a : forall w b, mrun w (a ++ b) = do w' <- mrun w a; mrun w' b.
Proof.
  induction a as [|c a IH]; intros w b; cbn; [reflexivity|]. destruct (mstep w c); cbn; [apply IH|reflexivity].
Qed.
Lemma set_nth_same {A} (l : list A) : forall i x y, nth_error l i = Some y -> nth_error (set_nth l i x) i = Some x.
Proof. induction l as [|a l IH]; intros [|i] x y H; cbn in *; try discriminate; [reflexivity|]. eapply IH, H. Qed.
Lemma set_nth_other {A} (l : list A) : forall i j x, i <> j -> nth_error (set_nth l i x) j = nth_error l j.
Proof. induction l as [|a l IH]; intros [|i] [|j] x H; cbn; try reflexivity; try congruence. apply IH. congruence. Qed.

Definition mmirrors (w : mworld) (L : mlib) : Prop :=
  ml_on L = m_init w /\
  (forall h, ml_open L h = true -> (h < m_next w)%nat /\ exists i, nth_error (m_objs w) i = Some (Some (Some h))) /\
  (forall i h, nth_error (m_objs w) i = Some (Some (Some h)) -> ml_open L h = true) /\
  (forall i j h, nth_error (m_objs w) i = Some (Some (Some h)) -> nth_error (m_objs w) j = Some (Some (Some h)) -> i = j) /\
  (m_objs w <> [] -> m_init w = true).

Lemma minvariant acts : forall w, mrun start_mworld acts = Some w ->
  exists L, mlib_run mlib_start (noisy (m_trace w)) = Some L /\ mmirrors w L.
Proof.
  induction acts as [|a acts IH] using rev_ind; intros w H.
  - inversion H; subst. exists mlib_start. split; [reflexivity|]. split; [reflexivity|].
    split; [discriminate|]. split; [intros [|i] h Q; discriminate|]. split; [intros [|i] j h Q; discriminate|].
    intros NN. elim NN. reflexivity.
  - rewrite mrun_app in H. destruct (mrun start_mworld acts) as [w0|] eqn:E0; [|discriminate]. cbn in H.
    destruct (mstep w0 a) as [w1|] eqn:E1; [|discriminate]. cbn in H. inversion H; subst; clear H.
    destruct (IH w0 eq_refl) as (L & EL & M). clear IH E0. pose proof M as (M1 & M2 & M3 & M4 & M5).
    destruct a as [id|id ok|i|i]; cbn [mstep] in E1.
    + inversion E1; subst. exists L. split; [exact EL|exact M].
    + inversion E1; subst; clear E1.
      assert (Q : exists L0, mlib_run L (if m_init w0 then [] else [PmInitialize]) = Some L0 /\ ml_on L0 = true /\ ml_open L0 = ml_open L).
      { destruct (m_init w0) eqn:Ei; cbn.
        - exists L. auto.
        - rewrite M1. cbn. eexists. split; [reflexivity|]. split; reflexivity. }
      destruct Q as (L0 & EL0 & On0 & Op0).
      cbn [m_trace]. unfold noisy in *. rewrite !filter_app.
      assert (F : filter (fun c => negb (closes_nothing c)) (if m_init w0 then [] else [PmInitialize]) = if m_init w0 then [] else [PmInitialize])
        by (destruct (m_init w0); reflexivity).
      rewrite F. rewrite mlib_run_app, EL. cbn [bind]. rewrite mlib_run_app, EL0. cbn [bind filter closes_nothing negb].
      destruct ok; cbn [mlib_run mlib_step]; rewrite On0.
      * assert (Fr : ml_open L0 (m_next w0) = false).
        { rewrite Op0. destruct (ml_open L (m_next w0)) eqn:Q; [|reflexivity]. destruct (M2 _ Q). lia. }
        rewrite Fr. cbn [andb negb bind]. eexists. split; [reflexivity|]. split; [reflexivity|]. cbn [ml_open m_objs m_next m_init].
        rewrite Op0.
        assert (Bd : forall i h, nth_error (m_objs w0) i = Some (Some (Some h)) -> h < m_next w0).
        { intros i h Q. apply M3 in Q. apply M2 in Q. tauto. }
        split; [|split; [|split]].
        -- intros h Q. destruct (Nat.eq_dec h (m_next w0)) as [->|Nh].
           ++ split; [lia|]. exists (length (m_objs w0)). rewrite nth_snoc, Nat.eqb_refl. reflexivity.
           ++ rewrite upd_other in Q by exact Nh. destruct (M2 h Q) as (Hlt & i & Ei). split; [lia|]. exists i.
              rewrite nth_snoc. destruct (Nat.eqb_spec i (length (m_objs w0))) as [->|_]; [|exact Ei].
              rewrite (proj2 (nth_error_None _ _)) in Ei by lia. discriminate.
        -- intros i h Q. rewrite nth_snoc in Q. destruct (i =? length (m_objs w0)).
           ++ inversion Q; subst. apply upd_same.
           ++ rewrite upd_other; [exact (M3 i h Q)|]. specialize (Bd i h Q). lia.
        -- intros i j h Qi Qj. rewrite nth_snoc in Qi, Qj.
           destruct (Nat.eqb_spec i (length (m_objs w0))), (Nat.eqb_spec j (length (m_objs w0))); try congruence.
           ++ inversion Qi; subst. specialize (Bd _ _ Qj). lia.
           ++ inversion Qj; subst. specialize (Bd _ _ Qi). lia.
           ++ exact (M4 i j h Qi Qj).
        -- reflexivity.
      * cbn [bind]. exists L0. split; [reflexivity|]. split; [exact On0|]. cbn [m_objs m_next m_init]. rewrite Op0.
        split; [|split; [|split]].
        -- intros h Q. destruct (M2 h Q) as (Hlt & i & Ei). split; [exact Hlt|]. exists i.
           rewrite nth_snoc. destruct (Nat.eqb_spec i (length (m_objs w0))) as [->|_]; [|exact Ei].
           rewrite (proj2 (nth_error_None _ _)) in Ei by lia. discriminate.
        -- intros i h Q. rewrite nth_snoc in Q. destruct (i =? length (m_objs w0)); [discriminate|]. exact (M3 i h Q).
        -- intros i j h Qi Qj. rewrite nth_snoc in Qi, Qj.
           destruct (i =? length (m_objs w0)), (j =? length (m_objs w0)); try discriminate. exact (M4 i j h Qi Qj).
        -- reflexivity.
    + destruct (nth_error (m_objs w0) i) as [[[h|]|]|] eqn:En; try discriminate; inversion E1; subst; clear E1.
      * exists L. split; [|exact M]. cbn [m_trace]. unfold noisy in *. rewrite filter_app, mlib_run_app, EL.
        cbn [filter closes_nothing negb bind mlib_run mlib_step]. rewrite M1, (M3 i h En).
        rewrite M5; [reflexivity|]. intros Z. rewrite Z in En. destruct i; discriminate.
      * exists L. split; [exact EL|exact M].
    + destruct (nth_error (m_objs w0) i) as [[o|]|] eqn:En; try discriminate. inversion E1; subst; clear E1.
      assert (Ei : m_init w0 = true) by (apply M5; intros Z; rewrite Z in En; destruct i; discriminate).
      cbn [m_trace]. unfold noisy in *. rewrite filter_app, mlib_run_app, EL.
      destruct o as [h|]; cbn [filter closes_nothing negb bind mlib_run mlib_step].
      * rewrite M1, Ei, (M3 i h En). cbn [andb bind]. eexists. split; [reflexivity|].
        split; [cbn; congruence|]. cbn [ml_open m_objs m_next m_init]. split; [|split; [|split]].
        -- intros k Q. destruct (Nat.eq_dec k h) as [->|Nk]; [rewrite upd_same in Q; discriminate|].
           rewrite upd_other in Q by exact Nk. destruct (M2 k Q) as (Hlt & j & Ej). split; [exact Hlt|]. exists j.
           rewrite set_nth_other; [exact Ej|]. intros ->. congruence.
        -- intros j k Q. destruct (Nat.eq_dec i j) as [->|Nj]; [rewrite (set_nth_same _ _ _ _ En) in Q; discriminate|].
           rewrite set_nth_other in Q by exact Nj. rewrite upd_other; [exact (M3 j k Q)|]. intros ->.
           apply Nj. exact (M4 i j h En Q).
        -- intros j1 j2 k Q1 Q2.
           destruct (Nat.eq_dec i j1) as [->|N1]; [rewrite (set_nth_same _ _ _ _ En) in Q1; discriminate|].
           destruct (Nat.eq_dec i j2) as [->|N2]; [rewrite (set_nth_same _ _ _ _ En) in Q2; discriminate|].
           rewrite set_nth_other in Q1 by exact N1. rewrite set_nth_other in Q2 by exact N2. exact (M4 j1 j2 k Q1 Q2).
        -- intros _. first [exact Ei | reflexivity].
      * exists L. split; [reflexivity|]. split; [cbn; congruence|]. cbn [m_objs m_next m_init]. split; [|split; [|split]].
        -- intros k Q. destruct (M2 k Q) as (Hlt & j & Ej). split; [exact Hlt|]. exists j.
           rewrite set_nth_other; [exact Ej|]. intros ->. congruence.
        -- intros j k Q. destruct (Nat.eq_dec i j) as [->|Nj]; [rewrite (set_nth_same _ _ _ _ En) in Q; discriminate|].
           rewrite set_nth_other in Q by exact Nj. exact (M3 j k Q).
        -- intros j1 j2 k Q1 Q2.
           destruct (Nat.eq_dec i j1) as [->|N1]; [rewrite (set_nth_same _ _ _ _ En) in Q1; discriminate|].
           destruct (Nat.eq_dec i j2) as [->|N2]; [rewrite (set_nth_same _ _ _ _ En) in Q2; discriminate|].
           rewrite set_nth_other in Q1 by exact N1. rewrite set_nth_other in Q2 by exact N2. exact (M4 j1 j2 k Q1 Q2).
        -- intros _. first [exact Ei | reflexivity].
Qed.
Lemma all_open acts : forall w, mrun start_mworld acts = Some w -> (forall id, ~ In (MNew id false) acts) ->
  noisy (m_trace w) = m_trace w /\ ~ In (Some None) (m_objs w).
Proof.
  induction acts as [|a acts IH] using rev_ind; intros w H NF.
  - inversion H; subst. split; [reflexivity|intros []].
  - rewrite mrun_app in H. destruct (mrun start_mworld acts) as [w0|] eqn:E0; [|discriminate]. cbn in H.
    destruct (mstep w0 a) as [w1|] eqn:E1; [|discriminate]. cbn in H. inversion H; subst; clear H.
    destruct (IH w0 eq_refl) as (Q & N); [intros id I; apply (NF id), in_or_app; auto|]. clear IH E0.
    destruct a as [id|id ok|i|i]; cbn [mstep] in E1.
    + inversion E1; subst. auto.
    + destruct ok; [|exfalso; apply (NF id), in_or_app; right; now left]. inversion E1; subst; clear E1.
      cbn [m_trace m_objs]. split.
      * unfold noisy in *. rewrite !filter_app, Q. destruct (m_init w0); reflexivity.
      * intros [I|[I|[]]]%in_app_or; [exact (N I)|discriminate].
    + destruct (nth_error (m_objs w0) i) as [[[h|]|]|] eqn:En; try discriminate; inversion E1; subst; clear E1; [|auto].
      cbn [m_trace m_objs]. split; [|exact N]. unfold noisy in *. rewrite filter_app, Q. reflexivity.
    + destruct (nth_error (m_objs w0) i) as [[o|]|] eqn:En; try discriminate. inversion E1; subst; clear E1.
      destruct o as [h|]; [|exfalso; apply N; eapply nth_error_In, En].
      cbn [m_trace m_objs]. split.
      * unfold noisy in *. rewrite filter_app, Q. reflexivity.
      * intros I. apply N. clear -I. revert i I. induction (m_objs w0) as [|y l IH]; intros [|i] I; cbn in *; [exact I| exact I| |].
        -- destruct I as [I|I]; [discriminate|auto].
        -- destruct I as [I|I]; [auto|]. right. eapply IH, I.
Qed.
Lemma default_device acts : forall w0 w, mrun w0 acts = Some w -> m_default w = last_default (m_default w0) acts.
Proof.
  induction acts as [|a acts IH]; intros w0 w H; [inversion H; reflexivity|]. cbn [mrun] in H.
  destruct (mstep w0 a) as [w1|] eqn:E; [|discriminate]. cbn [bind] in H. rewrite (IH w1 w H).
  destruct a as [id|id ok|i|i]; cbn [mstep last_default] in *.
  - inversion E; reflexivity.
  - inversion E; reflexivity.
  - destruct (nth_error (m_objs w0) i) as [[[h|]|]|]; try discriminate; inversion E; reflexivity.
  - destruct (nth_error (m_objs w0) i) as [[o|]|]; try discriminate; inversion E; reflexivity.
Qed.
Lemma closed_at_end acts w L : run start_world acts = Some w -> lib_run lib_start (w_trace w) = Some L ->
  (forall i s, ~ exists_as w i s) -> forall h, l_stream L h = None.
Proof.
  intros H EL N h. destruct (invariant acts w H) as (L' & EL' & (M1 & M2 & _) & _).
  rewrite EL in EL'. inversion EL'; subst L'. destruct (l_stream L h) as [[a r]|] eqn:E; [|reflexivity].
  destruct (M2 h a r E) as (_ & s & Ex & _). elim (N _ _ Ex).
Qed.
