(** * The Scanner delivers the same tokens however the input is cut into pieces *)
From Coq Require Import Lia.
From Verif.Lib Require Import Go Utf8.
From Verif.Spec Require Import Tokens.
From Verif.Model Require Import Reader Embedding Scanner.
From Verif.Proofs Require Import Tokens.
Local Open Scope Z_scope.

Definition len (l : list byte) : Z := Z.of_nat (length l).

Section Any.
Variables (split : split_func) (whole : list byte -> list gostring * bool).
(** What a split function must satisfy to deliver [whole]. *)
Hypothesis W0 : whole [] = ([], false).
Hypothesis W1 : forall (win rest : list byte) (adv : nat) t, len win <= 65536 -> split win false = (adv, Some t) ->
  (1 <= adv <= length win)%nat /\ whole (win ++ rest) = (let (ts, e) := whole (skipn adv win ++ rest) in (t :: ts, e)).
Hypothesis W2 : forall (win rest : list byte) (adv : nat), split win false = (adv, None) ->
  (adv <= length win)%nat /\ whole (win ++ rest) = whole (skipn adv win ++ rest) /\
  (len (skipn adv win) = 65536 -> whole (skipn adv win ++ rest) = ([], true)).
Hypothesis W3 : forall (win : list byte) (adv : nat) t, len win < 65536 \/ snd (whole win) = false -> split win true = (adv, Some t) ->
  (1 <= adv <= length win)%nat /\ whole win = (let (ts, e) := whole (skipn adv win) in (t :: ts, e)).
Hypothesis W4 : forall (win : list byte) (adv : nat), len win < 65536 \/ snd (whole win) = false -> split win true = (adv, None) -> whole win = ([], false).

Lemma scan_whole sizes eager : forall (fuel k : nat) (cap start : Z) (win rest : list byte) (err : bool),
  (2 * length win + 3 * length rest + (if err then 0 else 1) < fuel)%nat ->
  0 <= start -> start + len win <= cap <= 65536 ->
  (err = true -> rest = []) ->
  (eager = true -> snd (whole (win ++ rest)) = false) ->
  (err = true -> len win < 65536 \/ eager = true) ->
  scan split sizes eager fuel k cap start win rest err = Some (whole (win ++ rest)).
Proof using All.
  induction fuel as [|fuel IH]; intros k cap start win rest err HF H0 HC HE HG HX; [lia|].
  assert (More : forall start1 (win1 : list byte), 0 <= start1 -> start1 + len win1 <= cap -> (length win1 <= length win)%nat -> err = false ->
    whole (win ++ rest) = whole (win1 ++ rest) -> (len win1 = 65536 -> whole (win1 ++ rest) = ([], true)) ->
    (let len := Z.of_nat (length win1) in
      let start2 := if (0 <? start1) && ((start1 + len =? cap) || (cap / 2 <? start1)) then 0 else start1 in
      let full := start2 + len =? cap in
      if full && (max_token <=? cap) then Some ([], true) else
      let cap3 := if full then (if cap =? 0 then 4096 else Z.min (2 * cap) max_token) else cap in
      let start3 := if full then 0 else start2 in
      match rest with
      | [] => scan split sizes eager fuel (S k) cap3 start3 win1 [] true
      | _ => let n := Nat.min (Nat.min (S (sizes k)) (Z.to_nat (cap3 - start3 - len))) (length rest) in
             scan split sizes eager fuel (S k) cap3 start3 (win1 ++ firstn n rest) (skipn n rest) (eager && (n =? length rest)%nat)
      end) = Some (whole (win ++ rest))).
  { intros start1 win1 Hs Hc Hl He Ew Tl. rewrite Ew in *. subst err. cbv zeta. unfold max_token. fold (len win1).
    set (start2 := if (0 <? start1) && ((start1 + len win1 =? cap) || (cap / 2 <? start1)) then 0 else start1).
    assert (Hs2 : start2 = start1 \/ start2 = 0) by (unfold start2; destruct (_ && _); auto).
    assert (Hs2' : start1 + len win1 = cap -> start2 = 0).
    { intros E. unfold start2. destruct (Z.ltb_spec 0 start1); cbn [andb]; [|lia]. rewrite E, Z.eqb_refl. reflexivity. }
    assert (L0 : 0 <= len win1) by (unfold len; lia).
    assert (Hfull : (start2 + len win1 =? cap) = true -> start2 = 0 /\ len win1 = cap) by (intros E; lia).
    destruct (start2 + len win1 =? cap) eqn:FU; cbn [andb].
    - destruct (Hfull eq_refl) as (Z2 & Z3). destruct (Z.leb_spec 65536 cap).
      { rewrite Tl by lia. reflexivity. }
      set (cap3 := if cap =? 0 then 4096 else Z.min (2 * cap) 65536).
      assert (Hc3 : len win1 < cap3 <= 65536) by (unfold cap3; destruct (Z.eqb_spec cap 0); lia).
      destruct rest as [|b0 rest0].
      + rewrite IH; auto; try lia; cbn [length] in *; lia.
      + set (rest := b0 :: rest0) in *. set (n := Nat.min (Nat.min (S (sizes k)) (Z.to_nat (cap3 - 0 - len win1))) (length rest)).
        assert (Hn : (1 <= n <= length rest)%nat) by (unfold n, rest; cbn [length]; lia).
        assert (Hn' : len win1 + Z.of_nat n <= cap3) by lia.
        assert (El : length (firstn n rest) = n) by (apply firstn_length_le; lia).
        rewrite IH.
        * rewrite <- app_assoc, firstn_skipn. reflexivity.
        * rewrite app_length, El, skipn_length. destruct (eager && _); lia.
        * lia.
        * unfold len in *. rewrite app_length, El. lia.
        * intros E. apply andb_prop in E. destruct E as [_ E]. apply Nat.eqb_eq in E. rewrite E. apply skipn_all.
        * rewrite <- app_assoc, firstn_skipn. exact HG.
        * intros E. apply andb_prop in E. destruct E as [E _]. auto.
    - assert (Hlt : start2 + len win1 < cap) by lia.
      destruct rest as [|b0 rest0].
      + rewrite IH; auto; try lia; cbn [length] in *; lia.
      + set (rest := b0 :: rest0) in *. set (n := Nat.min (Nat.min (S (sizes k)) (Z.to_nat (cap - start2 - len win1))) (length rest)).
        assert (Hn : (1 <= n <= length rest)%nat) by (unfold n, rest; cbn [length]; lia).
        assert (Hn' : start2 + len win1 + Z.of_nat n <= cap) by lia.
        assert (El : length (firstn n rest) = n) by (apply firstn_length_le; lia).
        rewrite IH.
        * rewrite <- app_assoc, firstn_skipn. reflexivity.
        * rewrite app_length, El, skipn_length. destruct (eager && _); lia.
        * lia.
        * unfold len in *. rewrite app_length, El. lia.
        * intros E. apply andb_prop in E. destruct E as [_ E]. apply Nat.eqb_eq in E. rewrite E. apply skipn_all.
        * rewrite <- app_assoc, firstn_skipn. exact HG.
        * intros E. apply andb_prop in E. destruct E as [E _]. auto. }
  cbn [scan].
  destruct ((0 <? length win)%nat || err) eqn:G.
  - destruct (split win err) as [adv [t|]] eqn:SP.
    + destruct err.
      * rewrite (HE eq_refl) in *. rewrite !app_nil_r in *.
        destruct (W3 win adv t) as [Ha Ew]; auto. { destruct (HX eq_refl); auto. }
        rewrite IH.
        -- rewrite app_nil_r, Ew. destruct (whole (skipn adv win)); reflexivity.
        -- rewrite skipn_length. cbn [length] in *. lia.
        -- lia.
        -- unfold len in *. rewrite skipn_length. lia.
        -- auto.
        -- rewrite app_nil_r. intros HEg. specialize (HG HEg). rewrite Ew in HG. destruct (whole (skipn adv win)). exact HG.
        -- intros _. destruct (HX eq_refl) as [X|X]; [left|right; exact X]. unfold len in *. rewrite skipn_length. lia.
      * destruct (W1 win rest adv t) as [Ha Ew]; auto; [lia|].
        rewrite IH.
        -- rewrite Ew. destruct (whole (skipn adv win ++ rest)); reflexivity.
        -- rewrite skipn_length. lia.
        -- lia.
        -- unfold len in *. rewrite skipn_length. lia.
        -- auto.
        -- intros HEg. specialize (HG HEg). rewrite Ew in HG. destruct (whole (skipn adv win ++ rest)). exact HG.
        -- discriminate.
    + destruct err.
      * rewrite (HE eq_refl) in *. rewrite app_nil_r in *. rewrite (W4 win adv); auto. destruct (HX eq_refl); auto.
      * destruct (W2 win rest adv SP) as (Ha & Ew & Tl). apply More; auto; try lia; unfold len in *; rewrite skipn_length; lia.
  - apply orb_false_iff in G. destruct G as [G ->]. destruct win as [|b win]; [|discriminate G]. cbn [skipn].
    apply More; auto; try lia; unfold len in *; cbn [length] in *; lia.
Qed.

Lemma scan_all_whole sizes data : scan_all split sizes false data = Some (whole data).
Proof using All.
  unfold scan_all. rewrite scan_whole; auto; try lia; try discriminate.
  - cbn [length]. lia.
  - unfold len. cbn [length]. lia.
Qed.
Lemma scan_all_eager sizes data : snd (whole data) = false -> scan_all split sizes true data = Some (whole data).
Proof using All.
  intros H. unfold scan_all. rewrite scan_whole; auto; try lia; try discriminate.
  - cbn [length]. lia.
  - unfold len. cbn [length]. lia.
Qed.
End Any.

(** ** ScanWords *)
Lemma word_unique (w l w2 l2 : list byte) : ~ has_space w -> (l = [] \/ starts_with_space l) -> ~ has_space w2 -> (l2 = [] \/ starts_with_space l2) ->
  w ++ l = w2 ++ l2 -> w = w2 /\ l = l2.
Proof.
  intros Hns Hl Hns2 Hl2 EL. destruct (app_split _ _ _ _ EL) as [(k & -> & ->)|(k & Hk & -> & ->)].
  - destruct k as [|k0 k]; [rewrite app_nil_r; auto|]. exfalso.
    destruct Hl as [?|(s & r & Hs & Hr)]; [discriminate|].
    rewrite Hr in EL.
    destruct (no_straddle (w ++ k0 :: k) l2 w s r Hs Hl2) as [H|[m Hm]]; [rewrite <- Hr, <- app_assoc; reflexivity|contradiction|].
    apply (f_equal (@length byte)) in Hm. rewrite !app_length in Hm. cbn [length] in Hm. lia.
  - exfalso. destruct k as [|k0 k]; [congruence|].
    destruct Hl2 as [?|(s & r & Hs & Hr)]; [discriminate|].
    destruct (no_straddle (w2 ++ k0 :: k) l w2 s r Hs Hl) as [H|[m Hm]]; [rewrite <- Hr, <- app_assoc; reflexivity|contradiction|].
    apply (f_equal (@length byte)) in Hm. rewrite !app_length in Hm. cbn [length] in Hm. lia.
Qed.

Lemma skip_spaces_char : forall (data : list byte) fuel, (length data <= fuel)%nat ->
  exists ss, Forall is_space ss /\ data = concat ss ++ skip_spaces fuel data.
Proof.
  intros data fuel. revert data. induction fuel as [|fuel IH]; intros data Hf.
  - exists []. destruct data; [|cbn [length] in Hf; lia]. auto.
  - destruct data as [|b0 t]; [exists []; auto|]. cbn [skip_spaces]. destruct (decode_rune (b0 :: t)) as [r width] eqn:D.
    destruct (is_space_rune r) eqn:E; [|exists []; auto].
    pose proof (decode_space (b0 :: t)) as Hd. rewrite D in Hd. cbn [fst snd] in Hd. destruct (Hd E) as (s & l & Hs & Hl & Hlen).
    assert (Hsk : skipn width (b0 :: t) = l) by (rewrite Hl, skipn_app, <- Hlen, skipn_all, Nat.sub_diag; reflexivity).
    rewrite Hsk. pose proof (space_len_le s Hs). assert (Hll : length (b0 :: t) = (length s + length l)%nat) by (rewrite Hl, app_length; reflexivity).
    destruct (IH l ltac:(lia)) as (ss & Fs & Es). exists (s :: ss). split; [constructor; auto|]. cbn [concat]. rewrite <- app_assoc, <- Es. exact Hl.
Qed.
Lemma space_app_starts (s l : list byte) : is_space s -> starts_with_space (s ++ l). Proof. intros H. exists s, l. auto. Qed.
Lemma skip_unique : forall ss ss' (d d' : list byte), Forall is_space ss -> Forall is_space ss' -> concat ss ++ d = concat ss' ++ d' ->
  ~ starts_with_space d -> ~ starts_with_space d' -> d = d'.
Proof.
  induction ss as [|s ss IH]; intros [|s' ss'] d d' F F' E N N'; cbn [concat app] in E; auto.
  - exfalso. apply N. rewrite E, <- app_assoc. apply space_app_starts. inversion F'; auto.
  - exfalso. apply N'. rewrite <- E, <- app_assoc. apply space_app_starts. inversion F; auto.
  - inversion F; inversion F'; subst. rewrite <- !app_assoc in E. destruct (space_prefix s s' _ _ ltac:(auto) ltac:(auto) E) as [-> E']. eapply IH; eauto.
Qed.
Lemma skip_spaces_ns (data : list byte) fuel : (length data <= fuel)%nat -> ~ starts_with_space (skip_spaces fuel data).
Proof. intros H. apply (skip_spaces_spec fuel data H). Qed.
(** Spaces in front change nothing. *)
Lemma skip_concat ss (d : list byte) : Forall is_space ss -> skip_spaces (length (concat ss ++ d)) (concat ss ++ d) = skip_spaces (length d) d.
Proof.
  intros F. destruct (skip_spaces_char (concat ss ++ d) _ (Nat.le_refl _)) as (s1 & F1 & E1). destruct (skip_spaces_char d _ (Nat.le_refl _)) as (s2 & F2 & E2).
  apply (skip_unique s1 (ss ++ s2)); [exact F1|apply Forall_app; auto| |apply skip_spaces_ns; lia|apply skip_spaces_ns; lia].
  rewrite <- E1, concat_app, <- app_assoc, <- E2. reflexivity.
Qed.
Lemma skip_id (d : list byte) : ~ starts_with_space d -> skip_spaces (length d) d = d.
Proof.
  intros N. destruct (skip_spaces_char d _ (Nat.le_refl _)) as (s1 & F1 & E1). apply (skip_unique s1 []); [exact F1|constructor| |apply skip_spaces_ns; lia|exact N]. cbn [concat app]. auto.
Qed.
Lemma take_word_char (w s r : list byte) : ~ has_space w -> is_space s -> take_word (length (w ++ s ++ r)) (w ++ s ++ r) = (w, r, length s).
Proof.
  intros Hw Hs. destruct (take_word (length (w ++ s ++ r)) (w ++ s ++ r)) as [[w' r'] sw'] eqn:T.
  destruct (take_word_spec _ _ _ _ _ (Nat.le_refl _) T) as (l & Hl & Hn & Hr & _).
  assert (Hst : l = [] \/ starts_with_space l) by (destruct Hr as [(-> & _)|(s' & Hs' & -> & _)]; [auto|right; apply space_app_starts; auto]).
  destruct (word_unique w (s ++ r) w' l Hw (or_intror (space_app_starts s r Hs)) Hn Hst Hl) as [-> <-].
  destruct Hr as [(E & _)|(s' & Hs' & E & El)].
  - apply (f_equal (@length byte)) in E. rewrite app_length in E. pose proof (space_len_le s Hs). cbn [length] in E. lia.
  - destruct (space_prefix s s' r r' Hs Hs' E) as [<- <-]. subst sw'. reflexivity.
Qed.
Lemma take_word_all (w : list byte) : ~ has_space w -> take_word (length w) w = (w, [], 0%nat).
Proof.
  intros Hw. destruct (take_word (length w) w) as [[w' r'] sw'] eqn:T. destruct (take_word_spec _ _ _ _ _ (Nat.le_refl _) T) as (l & Hl & Hn & Hr & _).
  destruct Hr as [(-> & -> & ->)|(s' & Hs' & -> & El)]; [rewrite app_nil_r in Hl; congruence|]. exfalso. apply Hw. exists w', s', r'. auto.
Qed.

Definition whole_words (data : list byte) : list gostring * bool := scan_words (S (length data)) data.

Lemma scan_words_fuel : forall fuel fuel' (data : list byte), (length data < fuel)%nat -> (length data < fuel')%nat -> scan_words fuel data = scan_words fuel' data.
Proof.
  induction fuel as [|fuel IH]; intros [|fuel'] data H H'; try lia. cbn [scan_words].
  destruct (skip_spaces_char data _ (Nat.le_refl _)) as (ss & _ & E). apply (f_equal (@length byte)) in E. rewrite app_length in E.
  pose proof (skip_spaces_ns data _ (Nat.le_refl _)) as NS.
  destruct (skip_spaces (length data) data) as [|b t] eqn:D; [reflexivity|]. set (d := b :: t) in *.
  destruct (take_word (length d) d) as [[w rest] sw] eqn:T. destruct (max_token <? _); [reflexivity|].
  destruct (take_word_spec _ _ _ _ _ (Nat.le_refl _) T) as (l & Hl & _ & Hr & Hne). specialize (Hne ltac:(discriminate) NS).
  assert (length rest < length d)%nat.
  { apply (f_equal (@length byte)) in Hl. rewrite app_length in Hl. destruct w; [congruence|]. cbn [length] in Hl.
    destruct Hr as [(-> & -> & _)|(s & _ & -> & _)]; [unfold d; cbn [length]; lia|rewrite app_length in Hl; lia]. }
  rewrite (IH fuel' rest) by lia. reflexivity.
Qed.
Lemma whole_words_eq (data : list byte) : whole_words data =
  match skip_spaces (length data) data with
  | [] => ([], false)
  | d => let '(w, rest, sw) := take_word (length d) d in
         if max_token <? Z.of_nat (length w + Nat.max 1 sw) then ([], true)
         else let (ws, e) := whole_words rest in (w :: ws, e)
  end.
Proof.
  unfold whole_words at 1. cbn [scan_words].
  destruct (skip_spaces_char data _ (Nat.le_refl _)) as (ss & _ & E). apply (f_equal (@length byte)) in E. rewrite app_length in E.
  pose proof (skip_spaces_ns data _ (Nat.le_refl _)) as NS.
  destruct (skip_spaces (length data) data) as [|b t] eqn:D; [reflexivity|]. set (d := b :: t) in *.
  destruct (take_word (length d) d) as [[w rest] sw] eqn:T. destruct (max_token <? _); [reflexivity|].
  destruct (take_word_spec _ _ _ _ _ (Nat.le_refl _) T) as (l & Hl & _ & Hr & Hne). specialize (Hne ltac:(discriminate) NS).
  assert (length rest < length d)%nat.
  { apply (f_equal (@length byte)) in Hl. rewrite app_length in Hl. destruct w; [congruence|]. cbn [length] in Hl.
    destruct Hr as [(-> & -> & _)|(s & _ & -> & _)]; [unfold d; cbn [length]; lia|rewrite app_length in Hl; lia]. }
  unfold whole_words. rewrite (scan_words_fuel (length data) (S (length rest)) rest) by lia. reflexivity.
Qed.

(** The shape of what ScanWords sees. *)
Lemma split_words_shape (win : list byte) : exists ss d, Forall is_space ss /\ win = concat ss ++ d /\ ~ starts_with_space d /\
  ((~ has_space d /\ forall b, split_words win b = if b && (0 <? length d)%nat then (length win, Some d) else (length (concat ss), None)) \/
   (exists w s r, w <> [] /\ ~ has_space w /\ is_space s /\ d = w ++ s ++ r /\ forall b, split_words win b = ((length (concat ss) + length w + length s)%nat, Some w))).
Proof.
  destruct (skip_spaces_char win _ (Nat.le_refl _)) as (ss & F & E). pose proof (skip_spaces_ns win _ (Nat.le_refl _)) as NS. unfold split_words.
  set (d := skip_spaces (length win) win) in *. exists ss, d. split; [exact F|]. split; [exact E|]. split; [exact NS|].
  pose proof E as EL. apply (f_equal (@length byte)) in EL. rewrite app_length in EL.
  destruct (take_word (length d) d) as [[w rest] sw] eqn:T. destruct (take_word_spec _ _ _ _ _ (Nat.le_refl _) T) as (l & Hl & Hn & Hr & Hne).
  destruct Hr as [(-> & -> & ->)|(s & Hs & -> & El)].
  - left. rewrite app_nil_r in Hl. split; [rewrite Hl; exact Hn|]. intros b. cbn [Nat.ltb Nat.leb]. destruct (b && _); [reflexivity|]. f_equal. lia.
  - right. exists w, s, rest. assert (Nd : d <> []). { rewrite Hl. intros Q. apply app_eq_nil in Q. destruct Q as [_ Q]. apply app_eq_nil in Q. destruct Q as [Q _]. subst s. apply space_len_le in Hs. cbn [length] in Hs. lia. }
    split; [auto|]. split; [exact Hn|]. split; [exact Hs|]. split; [exact Hl|]. intros b. pose proof (space_len_le s Hs). apply (f_equal (@length byte)) in Hl. rewrite !app_length in Hl.
    destruct (Nat.ltb_spec 0 sw); [|lia]. f_equal. lia.
Qed.

Lemma no_space_start (w s r rest : list byte) : w <> [] -> ~ has_space w -> is_space s -> ~ starts_with_space (w ++ s ++ r).
Proof.
  intros Nw Hw Hs (s' & r' & Hs' & E). destruct (no_straddle w (s ++ r) [] s' r' Hs' (or_intror (space_app_starts s r Hs)) E) as [H|[k H]]; [contradiction|].
  symmetry in H. apply app_eq_nil in H. tauto.
Qed.
Lemma whole_words_word ss (w s r : list byte) : Forall is_space ss -> w <> [] -> ~ has_space w -> is_space s -> len w + len s <= 65536 ->
  whole_words (concat ss ++ w ++ s ++ r) = (let (ts, e) := whole_words r in (w :: ts, e)).
Proof.
  intros F Nw Hw Hs HL. rewrite whole_words_eq, skip_concat, skip_id by (auto; apply no_space_start; auto).
  assert (T : take_word (length (w ++ s ++ r)) (w ++ s ++ r) = (w, r, length s)) by (apply take_word_char; auto).
  destruct (w ++ s ++ r) as [|b t] eqn:D; [apply app_eq_nil in D; tauto|]. cbv zeta. rewrite T. unfold max_token, len in *. pose proof (space_len_le s Hs).
  destruct (Z.ltb_spec 65536 (Z.of_nat (length w + Nat.max 1 (length s)))); [lia|reflexivity].
Qed.
Lemma whole_words_spaces ss (d : list byte) : Forall is_space ss -> whole_words (concat ss ++ d) = whole_words d.
Proof. intros F. rewrite !whole_words_eq, skip_concat by auto. reflexivity. Qed.

Lemma skipn_len_app {A} (a b : list A) n : n = length a -> skipn n (a ++ b) = b.
Proof. intros ->. rewrite skipn_app, skipn_all, Nat.sub_diag. reflexivity. Qed.

Lemma words_1 : forall (win rest : list byte) (adv : nat) t, len win <= 65536 -> split_words win false = (adv, Some t) ->
  (1 <= adv <= length win)%nat /\ whole_words (win ++ rest) = (let (ts, e) := whole_words (skipn adv win ++ rest) in (t :: ts, e)).
Proof.
  intros win rest adv t HL E. destruct (split_words_shape win) as (ss & d & F & Ew & NS & [(Nd & S)|(w & s & r & Nw & Hw & Hs & Ed & S)]); rewrite S in E.
  - cbn [andb] in E. discriminate E.
  - injection E as <- <-. subst d. pose proof (space_len_le s Hs) as Ls. assert (Lw : (1 <= length w)%nat) by (destruct w; [congruence|cbn [length]; lia]).
    unfold len in HL. rewrite Ew, !app_length in HL |- *.
    split; [lia|]. rewrite (app_assoc (concat ss)), (app_assoc (concat ss ++ w)), skipn_len_app by (rewrite !app_length; lia).
    rewrite <- !app_assoc. apply whole_words_word; auto. unfold len. lia.
Qed.
Lemma no_space_long (d rest : list byte) : ~ has_space d -> (3 <= length d)%nat -> ~ starts_with_space (d ++ rest).
Proof.
  intros Nd L (s & r & Hs & E). pose proof (space_len_le s Hs). destruct (app_split _ _ _ _ E) as [(k & Ek & _)|(k & Hk & Ek & _)].
  - assert (k = []) as -> by (apply (f_equal (@length byte)) in Ek; rewrite app_length in Ek; destruct k; [reflexivity|cbn [length] in Ek; lia]).
    rewrite app_nil_r in Ek. subst d. apply Nd. exists [], s, []. rewrite app_nil_r. auto.
  - apply Nd. exists [], s, k. auto.
Qed.
Lemma words_2 : forall (win rest : list byte) (adv : nat), split_words win false = (adv, None) ->
  (adv <= length win)%nat /\ whole_words (win ++ rest) = whole_words (skipn adv win ++ rest) /\
  (len (skipn adv win) = 65536 -> whole_words (skipn adv win ++ rest) = ([], true)).
Proof.
  intros win rest adv E. destruct (split_words_shape win) as (ss & d & F & Ew & NS & [(Nd & S)|(w & s & r & Nw & Hw & Hs & Ed & S)]); rewrite S in E; [|discriminate E].
  cbn [andb] in E. injection E as <-. rewrite Ew, app_length, skipn_len_app by reflexivity. split; [lia|]. split; [rewrite <- app_assoc; apply whole_words_spaces; auto|].
  intros L. unfold len in L. rewrite whole_words_eq, skip_id by (apply no_space_long; auto; lia).
  destruct (take_word (length (d ++ rest)) (d ++ rest)) as [[w' r'] sw'] eqn:T. destruct (take_word_spec _ _ _ _ _ (Nat.le_refl _) T) as (l & Hl & Hn & Hr & _).
  destruct (d ++ rest) as [|b t] eqn:D; [apply app_eq_nil in D; destruct D as [-> _]; cbn [length] in L; lia|]. cbv zeta. rewrite T. rewrite <- D in *. unfold max_token.
  destruct (Z.ltb_spec 65536 (Z.of_nat (length w' + Nat.max 1 sw'))) as [_|G]; [reflexivity|]. exfalso.
  destruct Hr as [(-> & -> & ->)|(s' & Hs' & -> & El)].
  - apply (f_equal (@length byte)) in Hl. rewrite !app_length in Hl. cbn [length] in Hl. lia.
  - pose proof (space_len_le s' Hs') as Ls'. rewrite app_assoc in Hl. destruct (app_split _ _ _ _ Hl) as [(k & Ek & _)|(k & Hk & Ek & _)].
    + assert (k = []) as -> by (apply (f_equal (@length byte)) in Ek; rewrite !app_length in Ek; destruct k; [reflexivity|cbn [length] in Ek; lia]).
      apply Nd. exists w', s', []. rewrite !app_nil_r in *. auto.
    + apply Nd. exists w', s', k. split; [auto|]. rewrite Ek, <- app_assoc. reflexivity.
Qed.
Lemma words_3 : forall (win : list byte) (adv : nat) t, len win < 65536 \/ snd (whole_words win) = false -> split_words win true = (adv, Some t) ->
  (1 <= adv <= length win)%nat /\ whole_words win = (let (ts, e) := whole_words (skipn adv win) in (t :: ts, e)).
Proof.
  intros win adv t HL E. destruct (split_words_shape win) as (ss & d & F & Ew & NS & [(Nd & S)|(w & s & r & Nw & Hw & Hs & Ed & S)]); rewrite S in E.
  - cbn [andb] in E. destruct (Nat.ltb_spec 0 (length d)) as [Ld|Ld]; [|discriminate E]. injection E as <- <-. rewrite skipn_all.
    split; [rewrite Ew, app_length; lia|].
    assert (EQ : whole_words win = if 65536 <? Z.of_nat (length d + 1) then ([], true) else ([d], false)).
    { rewrite Ew, whole_words_spaces by auto. rewrite whole_words_eq, skip_id by auto. destruct d as [|b0 d0]; [cbn [length] in Ld; lia|]. set (d := b0 :: d0) in *. cbv zeta. rewrite take_word_all by auto.
      unfold max_token. reflexivity. }
    rewrite EQ in HL |- *. destruct (Z.ltb_spec 65536 (Z.of_nat (length d + 1))) as [G|G]; [|reflexivity]. exfalso.
    destruct HL as [HL|HL]; [|discriminate HL]. unfold len in HL. rewrite Ew, app_length in HL. lia.
  - injection E as <- <-. subst d. pose proof (space_len_le s Hs) as Ls. assert (Lw : (1 <= length w)%nat) by (destruct w; [congruence|cbn [length]; lia]).
    rewrite Ew. rewrite (app_assoc (concat ss)), (app_assoc (concat ss ++ w)), skipn_len_app by (rewrite !app_length; lia). rewrite <- !app_assoc.
    split; [rewrite !app_length; lia|].
    destruct (Z.le_gt_cases (len w + len s) 65536) as [G|G]; [apply whole_words_word; auto|]. exfalso.
    destruct HL as [HL|HL]; [unfold len in *; rewrite Ew, !app_length in HL; lia|].
    rewrite Ew, whole_words_spaces, whole_words_eq, skip_id in HL by (auto; apply no_space_start; auto).
    assert (T : take_word (length (w ++ s ++ r)) (w ++ s ++ r) = (w, r, length s)) by (apply take_word_char; auto).
    destruct (w ++ s ++ r) as [|b t] eqn:D; [apply app_eq_nil in D; tauto|]. cbv zeta in HL. rewrite T in HL. unfold max_token, len in *.
    destruct (Z.ltb_spec 65536 (Z.of_nat (length w + Nat.max 1 (length s)))); [discriminate HL|lia].
Qed.
Lemma words_4 : forall (win : list byte) (adv : nat), len win < 65536 \/ snd (whole_words win) = false -> split_words win true = (adv, None) -> whole_words win = ([], false).
Proof.
  intros win adv _ E. destruct (split_words_shape win) as (ss & d & F & Ew & NS & [(Nd & S)|(w & s & r & Nw & Hw & Hs & Ed & S)]); rewrite S in E; [|discriminate E].
  cbn [andb] in E. destruct d as [|b d]; [|discriminate E]. rewrite Ew, whole_words_spaces by auto. reflexivity.
Qed.

Theorem scan_words_pieces sizes data : scan_all split_words sizes false data = Some (whole_words data).
Proof. apply scan_all_whole; [reflexivity|exact words_1|exact words_2|exact words_3|exact words_4]. Qed.
Theorem scan_words_eager sizes data : snd (whole_words data) = false -> scan_all split_words sizes true data = Some (whole_words data).
Proof. apply scan_all_eager; [reflexivity|exact words_1|exact words_2|exact words_3|exact words_4]. Qed.

(** ** ScanLines *)
Definition whole_lines (data : list byte) : list gostring * bool := scan_lines (S (length data)) data.
Lemma take_line_len : forall (data : list byte), length data = match take_line data with (l, Some r) => S (length l + length r) | (l, None) => length l end.
Proof.
  induction data as [|b data IH]; [reflexivity|]. cbn [take_line]. destruct (byte_eq_dec b x0a); [reflexivity|].
  destruct (take_line data) as [l [r|]]; cbn [length] in *; lia.
Qed.
Lemma take_line_app : forall (a b : list byte), take_line (a ++ b) = match take_line a with (l, Some r) => (l, Some (r ++ b)) | (l, None) => let (l', r') := take_line b in (l ++ l', r') end.
Proof.
  induction a as [|x a IH]; intros b; [cbn; destruct (take_line b); reflexivity|]. cbn [app take_line]. destruct (byte_eq_dec x x0a); [reflexivity|]. rewrite IH.
  destruct (take_line a) as [l [r|]]; [reflexivity|]. destruct (take_line b); reflexivity.
Qed.
Lemma take_line_all : forall (a l : list byte), take_line a = (l, None) -> l = a.
Proof.
  induction a as [|x a IH]; intros l E; [cbn in E; congruence|]. cbn [take_line] in E. destruct (byte_eq_dec x x0a); [discriminate E|].
  destruct (take_line a) as [l' [r|]]; [discriminate E|]. injection E as <-. f_equal. apply IH. reflexivity.
Qed.
Lemma take_line_skip : forall (a l r : list byte), take_line a = (l, Some r) -> skipn (S (length l)) a = r.
Proof.
  induction a as [|x a IH]; intros l r E; [discriminate E|]. cbn [take_line] in E. destruct (byte_eq_dec x x0a); [injection E as <- <-; reflexivity|].
  destruct (take_line a) as [l' [r'|]]; [|discriminate E]. injection E as <- <-. cbn [length skipn]. apply (IH l' r'). reflexivity.
Qed.
Lemma scan_lines_fuel : forall fuel fuel' (data : list byte), (length data < fuel)%nat -> (length data < fuel')%nat -> scan_lines fuel data = scan_lines fuel' data.
Proof.
  induction fuel as [|fuel IH]; intros [|fuel'] data H H'; try lia. cbn [scan_lines]. destruct data as [|b t]; [reflexivity|]. set (d := b :: t) in *.
  pose proof (take_line_len d) as L. destruct (take_line d) as [l [r|]]; destruct (max_token <=? _); try reflexivity. rewrite (IH fuel' r) by lia. reflexivity.
Qed.
Lemma whole_lines_eq (data : list byte) : whole_lines data =
  match data with
  | [] => ([], false)
  | _ => let (l, rest) := take_line data in
         if max_token <=? Z.of_nat (length l) then ([], true)
         else match rest with None => ([drop_cr l], false) | Some r => let (ls, e) := whole_lines r in (drop_cr l :: ls, e) end
  end.
Proof.
  unfold whole_lines at 1. cbn [scan_lines]. destruct data as [|b t]; [reflexivity|]. set (d := b :: t) in *. pose proof (take_line_len d) as L.
  destruct (take_line d) as [l [r|]]; destruct (max_token <=? _); try reflexivity. unfold whole_lines. rewrite (scan_lines_fuel (length d) (S (length r)) r) by lia. reflexivity.
Qed.
Lemma take_line_some_nil (a l : list byte) r : take_line a = (l, Some r) -> a <> []. Proof. intros E ->. discriminate E. Qed.

Lemma lines_1 : forall (win rest : list byte) (adv : nat) t, len win <= 65536 -> split_lines win false = (adv, Some t) ->
  (1 <= adv <= length win)%nat /\ whole_lines (win ++ rest) = (let (ts, e) := whole_lines (skipn adv win ++ rest) in (t :: ts, e)).
Proof.
  intros win rest adv t HL E. unfold split_lines in E. cbn [andb] in E. destruct (take_line win) as [l [r|]] eqn:T; [|discriminate E]. injection E as <- <-.
  pose proof (take_line_len win) as L. rewrite T in L. split; [lia|]. rewrite (take_line_skip _ _ _ T). rewrite whole_lines_eq, take_line_app, T.
  destruct (win ++ rest) as [|b x] eqn:D; [apply app_eq_nil in D; destruct D as [-> _]; discriminate T|]. unfold max_token, len in *.
  destruct (Z.leb_spec 65536 (Z.of_nat (length l))); [lia|reflexivity].
Qed.
Lemma lines_2 : forall (win rest : list byte) (adv : nat), split_lines win false = (adv, None) ->
  (adv <= length win)%nat /\ whole_lines (win ++ rest) = whole_lines (skipn adv win ++ rest) /\
  (len (skipn adv win) = 65536 -> whole_lines (skipn adv win ++ rest) = ([], true)).
Proof.
  intros win rest adv E. unfold split_lines in E. cbn [andb] in E. destruct (take_line win) as [l [r|]] eqn:T; [discriminate E|]. injection E as <-. cbn [skipn].
  split; [lia|]. split; [reflexivity|]. intros L. pose proof (take_line_len win) as L'. rewrite T in L'. rewrite whole_lines_eq, take_line_app, T. destruct (take_line rest) as [l' r'].
  destruct (win ++ rest) as [|b x] eqn:D; [apply app_eq_nil in D; destruct D as [-> _]; discriminate L|]. unfold max_token, len in *. rewrite app_length.
  destruct (Z.leb_spec 65536 (Z.of_nat (length l + length l'))); [reflexivity|lia].
Qed.
Lemma lines_3 : forall (win : list byte) (adv : nat) t, len win < 65536 \/ snd (whole_lines win) = false -> split_lines win true = (adv, Some t) ->
  (1 <= adv <= length win)%nat /\ whole_lines win = (let (ts, e) := whole_lines (skipn adv win) in (t :: ts, e)).
Proof.
  intros win adv t HL E. unfold split_lines in E. cbn [andb] in E. destruct (Nat.eqb_spec (length win) 0) as [|Nz]; [discriminate E|].
  pose proof (take_line_len win) as L. rewrite whole_lines_eq in HL |- *. destruct (take_line win) as [l [r|]] eqn:T; injection E as <- <-.
  - split; [lia|]. rewrite (take_line_skip _ _ _ T). destruct win as [|b x]; [discriminate T|]. unfold max_token, len in *.
    destruct (Z.leb_spec 65536 (Z.of_nat (length l))); [|reflexivity]. exfalso. destruct HL as [HL|HL]; [lia|discriminate HL].
  - split; [lia|]. rewrite skipn_all. apply take_line_all in T. subst l. destruct win as [|b x]; [cbn [length] in Nz; lia|]. unfold max_token, len in *.
    destruct (Z.leb_spec 65536 (Z.of_nat (length (b :: x)))); [|reflexivity]. exfalso. destruct HL as [HL|HL]; [lia|discriminate HL].
Qed.
Lemma lines_4 : forall (win : list byte) (adv : nat), len win < 65536 \/ snd (whole_lines win) = false -> split_lines win true = (adv, None) -> whole_lines win = ([], false).
Proof.
  intros win adv _ E. unfold split_lines in E. cbn [andb] in E. destruct (Nat.eqb_spec (length win) 0) as [Z|Nz]; [destruct win; [reflexivity|discriminate Z]|].
  destruct (take_line win) as [l [r|]]; discriminate E.
Qed.
Theorem scan_lines_pieces sizes data : scan_all split_lines sizes false data = Some (whole_lines data).
Proof. apply scan_all_whole; [reflexivity|exact lines_1|exact lines_2|exact lines_3|exact lines_4]. Qed.
Theorem scan_lines_eager sizes data : snd (whole_lines data) = false -> scan_all split_lines sizes true data = Some (whole_lines data).
Proof. apply scan_all_eager; [reflexivity|exact lines_1|exact lines_2|exact lines_3|exact lines_4]. Qed.
