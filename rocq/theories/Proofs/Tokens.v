(** * Tokenisation: bufio.ScanWords cuts the text at the 25 white-space encodings *)
From Verif.Lib Require Import Go Utf8 ListFacts Tac.
From Verif.Spec Require Import Tokens.
From Verif.Model Require Import Reader.

Lemma bN_inj a b : bN a = bN b -> a = b.
Proof.
  unfold bN. intros H. apply (f_equal Byte.of_N) in H. rewrite !Byte.of_to_N in H. congruence.
Qed.

Lemma bN_lt b : (bN b < 256)%N.
Proof. unfold bN. pose proof (Byte.to_N_bounded b). lia. Qed.

Ltac known_bytes :=
  repeat match goal with
  | H : bN ?b = ?n |- _ =>
      is_var b;
      let v := eval vm_compute in (Byte.of_N n) in
      match v with
      | Some ?x => assert (b = x) by (apply bN_inj; rewrite H; reflexivity); clear H; subst b
      end
  end.

Lemma is_space_rune_true r : is_space_rune r = true ->
  In r [0x20; 0x09; 0x0A; 0x0B; 0x0C; 0x0D; 0x85; 0xA0; 0x1680; 0x2000; 0x2001; 0x2002; 0x2003;
        0x2004; 0x2005; 0x2006; 0x2007; 0x2008; 0x2009; 0x200A; 0x2028; 0x2029; 0x202F; 0x205F; 0x3000]%N.
Proof.
  unfold is_space_rune, inr. intros H. simpl In.
  destruct (r <=? 255)%N eqn:E; lia.
Qed.

Lemma decode_space l : is_space_rune (fst (decode_rune l)) = true ->
  exists s r, is_space s /\ l = s ++ r /\ length s = snd (decode_rune l).
Proof.
  destruct l as [|b0 t]; [discriminate|].
  cbn [decode_rune]. set (c0 := bN b0).
  destruct (c0 <? 0x80)%N eqn:E1; cbn [fst snd].
  { intros H. exists [b0], t. split; [|auto].
    apply is_space_rune_true in H. simpl In in H.
    unfold c0 in *. clear c0.
    assert (bN b0 = 32 \/ bN b0 = 9 \/ bN b0 = 10 \/ bN b0 = 11 \/ bN b0 = 12 \/ bN b0 = 13)%N by lia.
    clear H. unfold is_space, space_encodings.
    repeat match goal with H : _ \/ _ |- _ => destruct H end; known_bytes; simpl; tauto. }
  destruct (inr 0xC2 0xDF c0) eqn:E2.
  { destruct t as [|b1 t]; [discriminate|].
    destruct (cont b1) eqn:C1; [|discriminate]. cbn [fst snd].
    intros H. exists [b0; b1], t. split; [|auto].
    apply is_space_rune_true in H. simpl In in H.
    unfold c0, cont, inr in *. clear c0.
    assert (bN b0 = 0xC2 /\ (bN b1 = 0x85 \/ bN b1 = 0xA0))%N as [? ?] by lia.
    clear H E1 E2 C1. unfold is_space, space_encodings.
    repeat match goal with H : _ \/ _ |- _ => destruct H end; known_bytes; simpl; tauto. }
  destruct (inr 0xE0 0xEF c0) eqn:E3.
  { destruct t as [|b1 [|b2 t]]; try discriminate.
    destruct (inr _ _ (bN b1) && cont b2) eqn:C1; [|discriminate]. cbn [fst snd].
    intros H. exists [b0; b1; b2], t. split; [|auto].
    apply is_space_rune_true in H. simpl In in H.
    apply andb_true_iff in C1 as [C1 C2].
    unfold c0, cont, inr in *. clear c0.
    destruct (N.eqb_spec (bN b0) 0xE0) as [Z0|Z0]; [destruct (N.eqb_spec (bN b0) 0xED); lia|].
    assert (C1' : (0x80 <= bN b1 <= 0xBF)%N) by (revert C1; destruct (bN b0 =? 0xED)%N; lia).
    clear C1 E1 E2.
    repeat match goal with H : _ \/ _ |- _ => destruct H end; try contradiction.
    all: try (exfalso; lia).
    1: assert (bN b0 = 0xE1 /\ bN b1 = 0x9A /\ bN b2 = 0x80)%N as (? & ? & ?) by lia.
    13: assert (bN b0 = 0xE2 /\ bN b1 = 0x80 /\ bN b2 = 0xA8)%N as (? & ? & ?) by lia.
    14: assert (bN b0 = 0xE2 /\ bN b1 = 0x80 /\ bN b2 = 0xA9)%N as (? & ? & ?) by lia.
    15: assert (bN b0 = 0xE2 /\ bN b1 = 0x80 /\ bN b2 = 0xAF)%N as (? & ? & ?) by lia.
    16: assert (bN b0 = 0xE2 /\ bN b1 = 0x81 /\ bN b2 = 0x9F)%N as (? & ? & ?) by lia.
    17: assert (bN b0 = 0xE3 /\ bN b1 = 0x80 /\ bN b2 = 0x80)%N as (? & ? & ?) by lia.
    2-12: assert (bN b0 = 0xE2 /\ bN b1 = 0x80)%N as (? & ?) by lia.
    2: assert (bN b2 = 0x80)%N by lia.
    3: assert (bN b2 = 0x81)%N by lia.
    4: assert (bN b2 = 0x82)%N by lia.
    5: assert (bN b2 = 0x83)%N by lia.
    6: assert (bN b2 = 0x84)%N by lia.
    7: assert (bN b2 = 0x85)%N by lia.
    8: assert (bN b2 = 0x86)%N by lia.
    9: assert (bN b2 = 0x87)%N by lia.
    10: assert (bN b2 = 0x88)%N by lia.
    11: assert (bN b2 = 0x89)%N by lia.
    12: assert (bN b2 = 0x8A)%N by lia.
    all: clear H E3 C1' C2 Z0; known_bytes; unfold is_space, space_encodings; simpl; tauto. }
  destruct (inr 0xF0 0xF4 c0) eqn:E4; [|discriminate].
  destruct t as [|b1 [|b2 [|b3 t]]]; try discriminate.
  destruct (inr _ _ (bN b1) && cont b2 && cont b3) eqn:C1; [|discriminate]. cbn [fst snd].
  intros H. exfalso. apply is_space_rune_true in H. simpl In in H.
  apply andb_true_iff in C1 as [C1 C3]. apply andb_true_iff in C1 as [C1 C2].
  unfold c0, cont, inr in *. clear c0.
  destruct (N.eqb_spec (bN b0) 0xF0) as [Z0|Z0]; destruct (N.eqb_spec (bN b0) 0xF4); lia.
Qed.

Lemma starts_decode l : starts_with_space l -> is_space_rune (fst (decode_rune l)) = true.
Proof.
  intros (s & r & Hs & ->). unfold is_space, space_encodings in Hs. simpl in Hs.
  repeat (destruct Hs as [<-|Hs]; [reflexivity|]). contradiction.
Qed.

Lemma decode_width l : l <> [] -> 1 <= snd (decode_rune l) <= length l.
Proof.
  destruct l as [|b0 t]; [congruence|]. intros _. cbn [decode_rune].
  destruct (_ <? _)%N; [simpl; lia|].
  destruct (inr 0xC2 0xDF _).
  { destruct t as [|b1 t]; [simpl; lia|]. destruct (cont b1); simpl; lia. }
  destruct (inr 0xE0 0xEF _).
  { destruct t as [|b1 [|b2 t]]; try (simpl; lia). destruct (inr _ _ _ && _); simpl; lia. }
  destruct (inr 0xF0 0xF4 _); [|simpl; lia].
  destruct t as [|b1 [|b2 [|b3 t]]]; try (simpl; lia). destruct (inr _ _ _ && _ && _); simpl; lia.
Qed.

(** The bytes of a rune after the first one are continuation bytes. *)
Lemma decode_cont l : forall i b, 1 <= i < snd (decode_rune l) -> nth_error l i = Some b -> cont b = true.
Proof.
  destruct l as [|b0 t]; [simpl; intros; lia|]. cbn [decode_rune].
  destruct (_ <? _)%N; [simpl; intros; lia|].
  destruct (inr 0xC2 0xDF _).
  { destruct t as [|b1 t]; [simpl; intros; lia|]. destruct (cont b1) eqn:E; [|simpl; intros; lia].
    intros i b Hi. cbn [snd] in Hi. replace i with 1 by lia. simpl. congruence. }
  destruct (inr 0xE0 0xEF _).
  { destruct t as [|b1 [|b2 t]]; try (simpl; intros; lia).
    destruct (inr _ _ (bN b1) && cont b2) eqn:E; [|simpl; intros; lia].
    apply andb_true_iff in E as [E1 E2]. intros i b Hi. cbn [snd] in Hi.
    assert (i = 1 \/ i = 2) as [->| ->] by lia; simpl; intros Hb; inversion Hb; subst; auto.
    unfold cont, inr in *. revert E1. destruct (_ =? 224)%N, (_ =? 237)%N; lia. }
  destruct (inr 0xF0 0xF4 _); [|simpl; intros; lia].
  destruct t as [|b1 [|b2 [|b3 t]]]; try (simpl; intros; lia).
  destruct (inr _ _ (bN b1) && cont b2 && cont b3) eqn:E; [|simpl; intros; lia].
  apply andb_true_iff in E as [E E3]. apply andb_true_iff in E as [E1 E2].
  intros i b Hi. cbn [snd] in Hi.
  assert (i = 1 \/ i = 2 \/ i = 3) as [->|[->| ->]] by lia; simpl; intros Hb; inversion Hb; subst; auto.
  unfold cont, inr in *. revert E1. destruct (_ =? 240)%N, (_ =? 244)%N; lia.
Qed.

(** The first byte of a space is not a continuation byte, the others are. *)
Lemma space_shape s : is_space s -> exists b t, s = b :: t /\ cont b = false /\ forall x, In x t -> cont x = true.
Proof.
  intros Hs. unfold is_space, space_encodings in Hs. simpl in Hs.
  repeat (destruct Hs as [<-|Hs];
    [eexists; eexists; split; [reflexivity|]; split; [reflexivity|];
     simpl; intros x Hx; repeat (destruct Hx as [<-|Hx]; [reflexivity|]); contradiction|]).
  contradiction.
Qed.

Lemma starts_space_head l : starts_with_space l -> exists b t, l = b :: t /\ cont b = false.
Proof.
  intros (s & r & Hs & ->). destruct (space_shape _ Hs) as (b & t & -> & Hb & _).
  exists b, (t ++ r). auto.
Qed.

Lemma app_len_inj {A} (a b c d : list A) : length a = length c -> a ++ b = c ++ d -> a = c /\ b = d.
Proof.
  revert c; induction a as [|x a IH]; intros [|y c] L E; simpl in *; try discriminate; auto.
  injection E as -> E. destruct (IH c) as [-> ->]; auto.
Qed.

(** Two spaces of which one is a prefix of the other are equal. *)
Lemma space_prefix s1 s2 r1 r2 : is_space s1 -> is_space s2 -> s1 ++ r1 = s2 ++ r2 -> s1 = s2 /\ r1 = r2.
Proof.
  intros H1 H2 E.
  assert (L : length s1 = length s2).
  { destruct (space_shape _ H1) as (b1 & t1 & -> & Hb1 & Ht1).
    destruct (space_shape _ H2) as (b2 & t2 & -> & Hb2 & Ht2).
    injection E as -> E.
    unfold is_space, space_encodings in *. simpl in H1, H2.
    repeat (destruct H1 as [H1|H1]; [injection H1 as <- <-;
      repeat (destruct H2 as [H2|H2]; [try discriminate H2; injection H2 as <-; reflexivity|]); contradiction|]).
    contradiction. }
  now apply app_len_inj.
Qed.

Lemma app_split {A} (a b c d : list A) : a ++ b = c ++ d ->
  (exists k, c = a ++ k /\ b = k ++ d) \/ (exists k, k <> [] /\ a = c ++ k /\ d = k ++ b).
Proof.
  revert c; induction a as [|x a IH]; intros c E.
  - left. exists c. auto.
  - destruct c as [|y c].
    + right. exists (x :: a). split; [discriminate|]. simpl in *. auto.
    + injection E as -> E. destruct (IH _ E) as [(k & -> & ->)|(k & Hk & -> & ->)].
      * left. exists k. auto.
      * right. exists k. auto.
Qed.

(** A space found inside [w ++ l] where [l] is empty or begins with a space is either inside
    [w] or starts in [l]: it cannot straddle. *)
Lemma no_straddle w l a s b : is_space s -> l = [] \/ starts_with_space l ->
  w ++ l = a ++ s ++ b -> has_space w \/ exists k, a = w ++ k.
Proof.
  intros Hs Hl E.
  destruct (app_split _ _ _ _ E) as [(k & Hk & _)|(k & Hk & Hw & Hd)].
  - right. now exists k.
  - left. destruct (app_split _ _ _ _ Hd) as [(m & Hm & Hl')|(m & Hm & Hs' & Hl')].
    + exists a, s, m. split; auto. now rewrite Hw, Hm.
    + (* s = k ++ m with m nonempty: l begins with a continuation byte *)
      exfalso. destruct (space_shape _ Hs) as (c & t & -> & Hc & Ht).
      destruct k as [|k0 k]; [congruence|]. simpl in Hs'. injection Hs' as <- Hs'.
      destruct m as [|m0 m]; [congruence|].
      assert (Hm0 : cont m0 = true) by (apply Ht; rewrite Hs'; apply in_or_app; right; left; auto).
      destruct Hl as [->|Hl]; [discriminate|].
      destruct (starts_space_head _ Hl) as (h & tl & -> & Hh). injection Hl' as -> _. congruence.
Qed.

Lemma tokens_det l ws1 : tokens l ws1 -> forall ws2, tokens l ws2 -> ws1 = ws2.
Proof.
  induction 1 as [|s l ws Hs Ht IH|w l ws Hw Hns Hl Ht IH]; intros ws2 H2.
  - inversion H2 as [|s l ws Hs Hl E|w l ws Hw Hns Hl Hl' E]; subst; auto.
    + destruct (space_shape _ Hs) as (b & t & -> & _); discriminate.
    + destruct w; congruence || discriminate.
  - remember (s ++ l) as L eqn:EL. destruct H2 as [|s2 l2 ws2 Hs2 Ht2|w l2 ws2 Hw Hns Hl Ht2].
    + destruct (space_shape _ Hs) as (b & t & -> & _); discriminate.
    + destruct (space_prefix s2 s l2 l Hs2 Hs EL) as [-> ->]. now apply IH.
    + exfalso. destruct (no_straddle w l2 [] s l Hs Hl EL) as [H|[k Hk]]; [contradiction|].
      symmetry in Hk. apply app_eq_nil in Hk. tauto.
  - remember (w ++ l) as L eqn:EL. destruct H2 as [|s2 l2 ws2 Hs2 Ht2|w2 l2 ws2 Hw2 Hns2 Hl2 Ht2].
    + destruct w; congruence || discriminate.
    + exfalso. symmetry in EL.
      destruct (no_straddle w l [] s2 l2 Hs2 Hl EL) as [H|[k Hk]]; [contradiction|].
      symmetry in Hk. apply app_eq_nil in Hk. tauto.
    + assert (w = w2 /\ l = l2) as [-> ->].
      { destruct (app_split _ _ _ _ EL) as [(k & -> & ->)|(k & Hk & -> & ->)].
        - (* w = w2 ++ k, l2 = k ++ l *)
          destruct k as [|k0 k]; [rewrite app_nil_r; auto|]. exfalso.
          destruct Hl2 as [?|(s & r & Hs & Hr)]; [discriminate|].
          rewrite Hr in EL. symmetry in EL.
          destruct (no_straddle (w2 ++ k0 :: k) l w2 s r Hs Hl EL) as [H|[m Hm]]; [contradiction|].
          apply (f_equal (@length byte)) in Hm. rewrite !app_length in Hm. simpl in Hm. lia.
        - exfalso. destruct k as [|k0 k]; [congruence|].
          destruct Hl as [?|(s & r & Hs & Hr)]; [discriminate|].
          rewrite Hr in EL.
          destruct (no_straddle (w ++ k0 :: k) l2 w s r Hs Hl2 EL) as [H|[m Hm]]; [contradiction|].
          apply (f_equal (@length byte)) in Hm. rewrite !app_length in Hm. simpl in Hm. lia. }
      f_equal. now apply IH.
Qed.

Lemma skip_spaces_spec fuel data : length data <= fuel ->
  (forall ws, tokens (skip_spaces fuel data) ws -> tokens data ws) /\
  length (skip_spaces fuel data) <= length data /\
  ~ starts_with_space (skip_spaces fuel data).
Proof.
  revert data; induction fuel as [|fuel IH]; intros data Hf.
  - destruct data; [|simpl in Hf; lia]. simpl. split; [auto|]. split; [auto|].
    intros H. apply starts_space_head in H. destruct H as (? & ? & ? & _); discriminate.
  - destruct data as [|b0 t].
    { simpl. split; [auto|]. split; [auto|].
      intros H. apply starts_space_head in H. destruct H as (? & ? & ? & _); discriminate. }
    cbn [skip_spaces]. destruct (decode_rune (b0 :: t)) as [r width] eqn:D.
    pose proof (decode_width (b0 :: t) ltac:(discriminate)) as Hw. rewrite D in Hw. cbn [snd] in Hw.
    destruct (is_space_rune r) eqn:E.
    + pose proof (decode_space (b0 :: t)) as Hd. rewrite D in Hd. cbn [fst snd] in Hd.
      destruct (Hd E) as (s & l & Hs & Hl & Hlen).
      assert (Hsk : skipn width (b0 :: t) = l).
      { rewrite Hl, skipn_app, <- Hlen, skipn_all, Nat.sub_diag. reflexivity. }
      rewrite Hsk.
      assert (Hll : length l < length (b0 :: t)).
      { rewrite Hl, app_length. lia. }
      destruct (IH l) as (H1 & H2 & H3); [lia|].
      split; [|split; [lia|assumption]].
      intros ws Ht. rewrite Hl. apply tokens_space; auto.
    + split; [auto|]. split; [auto|].
      intros H. apply starts_decode in H. rewrite D in H. cbn [fst] in H. congruence.
Qed.

Lemma take_word_spec fuel data w rest sw : length data <= fuel ->
  take_word fuel data = (w, rest, sw) ->
  exists l, data = w ++ l /\ ~ has_space w /\
    ((l = [] /\ rest = [] /\ sw = 0) \/ (exists s, is_space s /\ l = s ++ rest /\ length s = sw)) /\
    (data <> [] -> ~ starts_with_space data -> w <> []).
Proof.
  revert data w rest sw; induction fuel as [|fuel IH]; intros data w rest sw Hf.
  - destruct data; [|simpl in Hf; lia]. simpl. intros E; inversion E; subst.
    exists []. split; [auto|]. split; [|split; [auto|congruence]].
    intros (a & s & b & Hs & Hab). destruct (space_shape _ Hs) as (c & t & -> & _).
    destruct a; discriminate.
  - destruct data as [|b0 t].
    { simpl. intros E; inversion E; subst.
      exists []. split; [auto|]. split; [|split; [auto|congruence]].
      intros (a & s & b & Hs & Hab). destruct (space_shape _ Hs) as (c & t & -> & _).
      destruct a; discriminate. }
    set (data := b0 :: t) in *. cbn [take_word]. unfold data at 1. fold data.
    destruct (decode_rune data) as [r width] eqn:D.
    assert (Hdne : data <> []) by discriminate.
    pose proof (decode_width data Hdne) as Hw. rewrite D in Hw. cbn [snd] in Hw.
    destruct (is_space_rune r) eqn:E.
    + intros Eq; inversion Eq; subst w rest sw.
      pose proof (decode_space data) as Hd. rewrite D in Hd. cbn [fst snd] in Hd.
      destruct (Hd E) as (s & l & Hs & Hl & Hlen).
      exists data. split; [reflexivity|]. split.
      { intros (a & s' & b & Hs' & Hab). destruct (space_shape _ Hs') as (c & t' & -> & _).
        destruct a; discriminate. }
      split.
      { right. exists s. split; auto. split; auto.
        rewrite Hl. rewrite skipn_app, <- Hlen, skipn_all, Nat.sub_diag. reflexivity. }
      intros _ Hns. exfalso. apply Hns. exists s, l. auto.
    + destruct (take_word fuel (skipn width data)) as [[w' rest'] sw'] eqn:T.
      intros Eq; inversion Eq; subst w rest sw. clear Eq.
      assert (Hfl : length (skipn width data) <= fuel) by (rewrite skipn_length; lia).
      destruct (IH _ _ _ _ Hfl T) as (l & Hl & Hns & Hrest & _).
      assert (Hdata : data = (firstn width data ++ w') ++ l).
      { rewrite <- app_assoc, <- Hl. now rewrite firstn_skipn. }
      exists l. split; [exact Hdata|]. split; [|split; [exact Hrest|]].
      * intros (a & s & b & Hs & Hab).
        destruct (Nat.le_gt_cases width (length a)) as [Ha|Ha].
        { apply Hns.
          destruct (app_split _ _ _ _ Hab) as [(k & Hk1 & Hk2)|(k & Hk & Hk1 & Hk2)].
          - exists k, s, b. auto.
          - exfalso. apply (f_equal (@length byte)) in Hk1. rewrite app_length in Hk1.
            assert (length (firstn width data) <= width) by apply firstn_le_length.
            destruct k; [congruence|simpl in Hk1; lia]. }
        destruct (space_shape _ Hs) as (c & ts & Hse & Hc & _).
        destruct a as [|a0 a].
        { assert (Hst : starts_with_space data).
          { exists s, (b ++ l). split; auto. rewrite Hdata, Hab. simpl. now rewrite app_assoc. }
          apply starts_decode in Hst. rewrite D in Hst. cbn [fst] in Hst. congruence. }
        assert (Hnth : nth_error data (length (a0 :: a)) = Some c).
        { rewrite Hdata, Hab, Hse, <- !app_assoc, nth_error_app2 by lia. now rewrite Nat.sub_diag. }
        pose proof (decode_cont data (length (a0 :: a)) c) as Hcont. rewrite D in Hcont. cbn [snd] in Hcont.
        rewrite Hcont in Hc; [discriminate|simpl; simpl in Ha; lia|exact Hnth].
      * intros _ _ Hnil. apply app_eq_nil in Hnil as [H _].
        apply (f_equal (@length byte)) in H. rewrite firstn_length in H. cbn [length] in H. lia.
Qed.

Lemma space_len_le s : is_space s -> 1 <= length s <= 3.
Proof.
  intros Hs. unfold is_space, space_encodings in Hs. simpl in Hs.
  repeat (destruct Hs as [<-|Hs]; [simpl; lia|]). contradiction.
Qed.

Lemma scan_words_spec fuel data ws e : length data < fuel ->
  scan_words fuel data = (ws, e) ->
  exists more, tokens data (ws ++ more) /\
    Forall (fun w => (Z.of_nat (length w) < 65536)%Z) ws /\
    (e = false -> more = []) /\
    (e = true -> exists w more', more = w :: more' /\ (65534 <= Z.of_nat (length w))%Z).
Proof.
  revert data ws e; induction fuel as [|fuel IH]; intros data ws e Hf; [lia|].
  cbn [scan_words].
  destruct (skip_spaces_spec (length data) data (Nat.le_refl _)) as (Hsk & Hlen & Hns).
  set (data' := skip_spaces (length data) data) in *.
  destruct data' as [|b0 t] eqn:Ed.
  { intros E; inversion E; subst. exists []. split; [apply Hsk; constructor|].
    split; auto. split; [auto|discriminate]. }
  rewrite <- Ed in *.
  destruct (take_word (length data') data') as [[w rest] sw] eqn:T.
  destruct (take_word_spec _ _ _ _ _ (Nat.le_refl _) T) as (l & Hl & Hnsw & Hrest & Hne).
  assert (Hwne : w <> []) by (apply Hne; [rewrite Ed; discriminate|assumption]).
  assert (Hst : l = [] \/ starts_with_space l).
  { destruct Hrest as [[-> _]|(s & Hs & -> & _)]; [now left|right; now exists s, rest]. }
  assert (Htl : forall ws', tokens rest ws' -> tokens data (w :: ws')).
  { intros ws' Ht. apply Hsk. rewrite Hl. apply tokens_word; auto.
    destruct Hrest as [(-> & -> & _)|(s & Hs & -> & _)]; auto. now apply tokens_space. }
  assert (Hrl : length rest < fuel).
  { assert (length rest <= length l).
    { destruct Hrest as [(-> & -> & _)|(s & Hs & -> & _)]; auto. rewrite app_length. lia. }
    apply (f_equal (@length byte)) in Hl. rewrite app_length in Hl.
    destruct w; [congruence|]. simpl in Hl. lia. }
  assert (Hsw : sw <= 3).
  { destruct Hrest as [(_ & _ & ->)|(s & Hs & _ & <-)]; [lia|]. apply space_len_le in Hs. lia. }
  destruct (max_token <? Z.of_nat (length w + Nat.max 1 sw))%Z eqn:Emax.
  - intros Eq; inversion Eq; subst ws e.
    assert (Hex : exists more, tokens rest more).
    { assert (Hgen : forall n d, length d < n -> exists ws', tokens d ws').
      { clear. induction n as [|n IHn]; intros d Hd; [lia|].
        destruct (skip_spaces_spec (length d) d (Nat.le_refl _)) as (Hsk & Hlen & Hns).
        destruct (skip_spaces (length d) d) as [|b0 t] eqn:Ed; [exists []; apply Hsk; constructor|].
        set (d' := b0 :: t) in *.
        destruct (take_word (length d') d') as [[w rest] sw] eqn:T.
        destruct (take_word_spec _ _ _ _ _ (Nat.le_refl _) T) as (l & Hl & Hnsw & Hrest & Hne).
        assert (Hwne : w <> []) by (apply Hne; [discriminate|assumption]).
        assert (length rest <= length l).
        { destruct Hrest as [(-> & -> & _)|(s & Hs & -> & _)]; auto. rewrite app_length. lia. }
        destruct (IHn rest) as [ws' Hws'].
        { apply (f_equal (@length byte)) in Hl. rewrite app_length in Hl.
          destruct w; [congruence|]. simpl in Hl. simpl in Hlen. lia. }
        exists (w :: ws'). apply Hsk. rewrite Hl. apply tokens_word; auto.
        - destruct Hrest as [[-> _]|(s & Hs & -> & _)]; [now left|right; now exists s, rest].
        - destruct Hrest as [(-> & -> & _)|(s & Hs & -> & _)]; auto. now apply tokens_space. }
      apply (Hgen (S (length rest))). lia. }
    destruct Hex as [more Hmore]. exists (w :: more). simpl. split; [auto|].
    split; auto. split; [discriminate|]. intros _. exists w, more. split; auto.
    unfold max_token in Emax. lia.
  - destruct (scan_words fuel rest) as [ws' e'] eqn:S.
    intros Eq; inversion Eq; subst ws e.
    destruct (IH _ _ _ Hrl S) as (more & H1 & H2 & H3 & H4).
    exists more. split; [simpl; auto|]. split; [constructor; auto; unfold max_token in Emax; lia|]. auto.
Qed.
