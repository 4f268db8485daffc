From Coq Require Import Lia.
From Verif.Lib Require Import Go F64 ListFacts Tac.
From Verif.Spec Require Import Words Tokens Lines Rows Saved Decimal.
From Verif.Model Require Import Dictionary Matrix Reader Embedding FmtFloat Vector.
From Verif.Proofs Require Import Tokens Reader FmtFloat Dictionary Vector.
Local Open Scope Z_scope.

(** ** Lines *)
Lemma take_line_spec data : let (l, rest) := take_line data in
  ~ In x0a l /\ data = l ++ match rest with Some r => [x0a] ++ r | None => [] end.
Proof.
  induction data as [|b r IH]; cbn [take_line]; [auto|]. destruct (byte_eq_dec b x0a) as [->|N]; [split; auto|].
  destruct (take_line r) as [l rest]. destruct IH as [IH1 IH2]. split.
  - intros [E|E]; [congruence|auto].
  - cbn [app]. f_equal. exact IH2.
Qed.

Lemma lines_total : forall n data, (length data < n)%nat -> exists ls, lines data ls.
Proof.
  induction n as [|n IH]; intros data H; [lia|]. destruct data as [|b r]; [exists []; constructor|].
  pose proof (take_line_spec (b :: r)) as T. destruct (take_line (b :: r)) as [l [rest|]]; destruct T as [T1 T2].
  - destruct (IH rest) as [ls Hls].
    { apply (f_equal (@length byte)) in T2. rewrite !app_length in T2. cbn [length] in T2, H. lia. }
    exists (l :: ls). rewrite T2. constructor; auto.
  - rewrite app_nil_r in T2. exists [l]. rewrite T2. constructor; auto. rewrite <- T2. discriminate.
Qed.

Lemma nl_split (l1 r1 l2 r2 : list byte) : ~ In x0a l1 -> ~ In x0a l2 -> l1 ++ [x0a] ++ r1 = l2 ++ [x0a] ++ r2 -> l1 = l2 /\ r1 = r2.
Proof.
  revert l2; induction l1 as [|x l1 IH]; intros [|y l2] H1 H2 E; cbn in *.
  - injection E as ->. auto.
  - injection E as E _. exfalso. apply H2. left. congruence.
  - injection E as E _. exfalso. apply H1. left. congruence.
  - injection E as -> E. destruct (IH l2) as [-> ->]; auto.
Qed.

Lemma lines_det data ls1 : lines data ls1 -> forall ls2, lines data ls2 -> ls1 = ls2.
Proof.
  induction 1 as [|l N I|l r ls I H IH]; intros ls2 H2.
  - inversion H2 as [|? N E|l r ls I H E]; subst; auto; [congruence|]. destruct l; discriminate.
  - inversion H2 as [E|? N' E|l' r ls I' H E]; subst; auto; [congruence|]. exfalso. apply I. apply in_or_app. right. left. reflexivity.
  - remember (l ++ [x0a] ++ r) as L eqn:EL. destruct H2 as [|l' N' I'|l' r' ls' I' H'].
    + destruct l; discriminate.
    + exfalso. apply I'. rewrite EL. apply in_or_app. right. left. reflexivity.
    + destruct (nl_split _ _ _ _ I' I EL) as [-> ->]. f_equal. apply IH. auto.
Qed.

Lemma scan_lines_spec : forall fuel data, (length data < fuel)%nat ->
  let (out, e) := scan_lines fuel data in
  exists pre more, lines data (pre ++ more) /\ out = map drop_cr pre /\
    Forall (fun l => Z.of_nat (length l) < 65536) pre /\
    if e then exists l m, more = l :: m /\ 65536 <= Z.of_nat (length l) else more = [].
Proof.
  induction fuel as [|fuel IH]; intros data H; [lia|]. destruct data as [|b r].
  { exists [], []. repeat split; constructor. }
  cbn [scan_lines]. pose proof (take_line_spec (b :: r)) as T. destruct (take_line (b :: r)) as [l rest]. destruct T as [T1 T2].
  unfold max_token. destruct (Z.leb_spec 65536 (Z.of_nat (length l))) as [Big|Small].
  - destruct (lines_total (S (length (b :: r))) (b :: r)) as [ls Hls]; [lia|].
    assert (exists m, ls = l :: m) as [m ->].
    { destruct rest as [r'|].
      - destruct (lines_total (S (length r')) r') as [m Hm]; [lia|]. exists m. apply (lines_det _ _ Hls). rewrite T2. constructor; auto.
      - exists []. apply (lines_det _ _ Hls). rewrite T2, app_nil_r. constructor; auto. destruct l; [cbn in Big; lia|discriminate]. }
    exists [], (l :: m). split; [exact Hls|]. split; [reflexivity|]. split; [constructor|]. exists l, m. split; [reflexivity|lia].
  - destruct rest as [r'|].
    + assert (Lr : (length r' < fuel)%nat).
      { apply (f_equal (@length byte)) in T2. rewrite !app_length in T2. cbn [length] in T2, H. lia. }
      specialize (IH r' Lr). destruct (scan_lines fuel r') as [out e]. destruct IH as (pre & more & HL & -> & F & E).
      exists (l :: pre), more. rewrite T2. split; [cbn [app]; constructor; auto|]. split; [reflexivity|]. split; [constructor; auto|]. exact E.
    + rewrite app_nil_r in T2. exists [l], []. split; [cbn [app]; rewrite T2; constructor; auto; rewrite <- T2; discriminate|].
      split; [reflexivity|]. split; [|reflexivity]. constructor; auto.
Qed.

Lemma drop_cr_cases l : drop_cr l = l \/ l = drop_cr l ++ [x0d].
Proof.
  unfold drop_cr. destruct (rev l) as [|b r] eqn:E; [auto|]. destruct (byte_eq_dec b x0d) as [->|]; [|auto].
  right. rewrite <- (rev_involutive l), E. reflexivity.
Qed.

Lemma drop_cr_blank l : blank_line (drop_cr l) = negb (kept l).
Proof.
  assert (K : forall l, blank_line l = negb (kept l)) by (intros [|b r]; [reflexivity|]; cbn; destruct (byte_eq_dec b " "); reflexivity).
  destruct (drop_cr_cases l) as [->|E]; [apply K|]. rewrite K. rewrite E at 2. destruct (drop_cr l); reflexivity.
Qed.

(** ** Fields *)
Lemma fields_spec : forall fuel data, (length data < fuel)%nat -> tokens data (fields fuel data).
Proof.
  induction fuel as [|fuel IH]; intros data H; [lia|]. cbn [fields].
  destruct (skip_spaces_spec (length data) data (le_n _)) as (S1 & S2 & S3).
  destruct (skip_spaces (length data) data) as [|b r] eqn:E.
  - apply S1. constructor.
  - destruct (take_word (length (b :: r)) (b :: r)) as [[w rest] sw] eqn:T.
    destruct (take_word_spec _ _ _ _ _ (le_n _) T) as (l & El & Ns & Hl & Nw).
    apply S1. rewrite El. apply tokens_word; auto.
    + apply Nw; [discriminate|auto].
    + destruct Hl as [(-> & _)|(s & Hs & -> & _)]; [auto|]. right. exists s, rest. auto.
    + assert (w <> []) by (apply Nw; [discriminate|auto]). apply (f_equal (@length byte)) in El. rewrite app_length in El.
      assert (1 <= length w)%nat by (destruct w; [congruence|cbn; lia]).
      destruct Hl as [(-> & -> & _)|(s & Hs & -> & _)]; [destruct fuel; cbn; constructor|].
      rewrite app_length in El. apply tokens_space; auto. apply IH. pose proof (space_len_le s Hs). lia.
Qed.

Lemma tokens_snoc_space l ws s : is_space s -> tokens l ws -> tokens (l ++ s) ws.
Proof.
  intros Hs. induction 1 as [|s' l ws Hs' Ht IH|w l ws Hw Hns Hl Ht IH].
  - cbn. rewrite <- (app_nil_r s). apply tokens_space; auto. constructor.
  - rewrite <- app_assoc. apply tokens_space; auto.
  - rewrite <- app_assoc. apply tokens_word; auto. right. destruct Hl as [->|(s' & r & Hs' & ->)].
    + exists s, []. rewrite app_nil_r. auto.
    + exists s', (r ++ s). rewrite app_assoc. auto.
Qed.

Lemma cr_space : is_space [x0d]. Proof. unfold is_space, space_encodings. cbn. tauto. Qed.

Lemma tokens_drop_cr l : tokens l (fields (S (length (drop_cr l))) (drop_cr l)).
Proof.
  pose proof (fields_spec (S (length (drop_cr l))) (drop_cr l) ltac:(lia)) as T.
  destruct (drop_cr_cases l) as [E|E]; [rewrite E in *; auto|]. rewrite E at 1. apply tokens_snoc_space; [apply cr_space|auto].
Qed.

Lemma Forall2_length {A B} (P : A -> B -> Prop) l1 l2 : Forall2 P l1 l2 -> length l1 = length l2.
Proof. induction 1; cbn; auto. Qed.

(** ** One line *)
Lemma parse_vec_spec pf ts : match parse_vec pf ts with
  | Ret v => Forall2 (fun t x => pf t = Some x) ts v
  | Err _ => forall v, ~ Forall2 (fun t x => pf t = Some x) ts v
  | Panic => False
  end.
Proof.
  induction ts as [|t ts IH]; cbn [parse_vec]; [constructor|].
  destruct (pf t) as [x|] eqn:E.
  - destruct (parse_vec pf ts) as [v|e|]; cbn [obind]; auto. intros v F. inversion F; subst. eapply IH; eauto.
  - intros v F. inversion F; subst. congruence.
Qed.

Lemma Forall2_pf_fun (pf : gostring -> option f64) ts v1 v2 : Forall2 (fun t x => pf t = Some x) ts v1 -> Forall2 (fun t (x : f64) => pf t = Some x) ts v2 -> v1 = v2.
Proof.
  intros F. revert v2. induction F as [|t x ts v1 E F IH]; intros v2 F2; inversion F2 as [|? y ? v2' E2 F2']; subst; auto.
  rewrite E in E2. injection E2 as ->. f_equal. auto.
Qed.

Lemma parse_line_spec pf l : match parse_line pf (drop_cr l) with
  | Ret e => line_says pf l e /\ forall e', line_says pf l e' -> e' = e
  | Err _ => forall e, ~ line_says pf l e
  | Panic => False
  end.
Proof.
  unfold parse_line. pose proof (tokens_drop_cr l) as T. set (fs := fields _ _) in *. clearbody fs.
  destruct fs as [|word [|v vs]].
  - intros e (name & nums & T' & _). discriminate (tokens_det _ _ T _ T').
  - intros e (name & nums & T' & N & _). pose proof (tokens_det _ _ T _ T') as E. injection E as -> <-. congruence.
  - pose proof (parse_vec_spec pf (v :: vs)) as P. destruct (parse_vec pf (v :: vs)) as [vec|e|]; cbn [obind]; auto.
    + split.
      * exists word, (v :: vs). cbn [e_vec e_word e_dim e_norm]. repeat split; auto; [discriminate|].
        rewrite (Forall2_length _ _ _ P). reflexivity.
      * intros [w d vec' nm] (name & nums & T' & N & F & Ew & Ed & En). cbn [e_vec e_word e_dim e_norm] in *.
        pose proof (tokens_det _ _ T _ T') as E. injection E as -> <-.
        assert (vec' = vec) as -> by (eapply Forall2_pf_fun; eauto). subst. f_equal. rewrite (Forall2_length _ _ _ P). reflexivity.
    + intros e' (name & nums & T' & N & F & _). pose proof (tokens_det _ _ T _ T') as E. injection E as -> <-. eapply P; eauto.
Qed.

Lemma tokens_words l ws : tokens l ws -> Forall (fun w => w <> [] /\ ~ has_space w) ws.
Proof. induction 1; auto. Qed.

Lemma line_says_valid pf l e : line_says pf l e ->
  e_word e <> [] /\ ~ has_space (e_word e) /\ 1 <= e_dim e /\ emb_validate e = Ret tt.
Proof.
  intros (name & nums & T & N & F & Ew & Ed & En). pose proof (tokens_words _ _ T) as W. inversion W as [|? ? [W1 W2] _]; subst.
  assert (1 <= length (e_vec e))%nat by (rewrite <- (Forall2_length _ _ _ F); destruct nums; [congruence|cbn; lia]).
  split; [auto|]. split; [auto|]. split; [lia|]. unfold emb_validate, gseqb. destruct (gostring_eq_dec (e_word e) []); [congruence|].
  rewrite Ed. destruct (Z.eqb_spec (Z.of_nat (length (e_vec e))) 0); [lia|]. cbn [orb].
  destruct (Nat.eqb_spec (length (e_vec e)) 0); [lia|]. rewrite Z.eqb_refl. reflexivity.
Qed.

(** ** Load *)
Section L.
Variable pf : gostring -> option f64.
Let step := (fun (s : list embedding) line =>
                    if blank_line line then (s, Ret tt)
                    else match parse_line pf line with
                         | Ret emb => match emb_validate emb with
                                 | Ret _ => (s ++ [emb], Ret tt)
                                 | Err e => (s, Err e)
                                 | Panic => (s, Panic)
                                 end
                         | Err e => (s, Err e)
                         | Panic => (s, Panic)
                         end).

Lemma load_lines : forall ls embs,
  (exists es, Forall2 (line_says pf) (filter kept ls) es /\ for_each step embs (map drop_cr ls) = (embs ++ es, Ret tt)) \/
  (exists s e, for_each step embs (map drop_cr ls) = (s, Err e) /\ forall es, ~ Forall2 (line_says pf) (filter kept ls) es).
Proof.
  induction ls as [|l ls IH]; intros embs; cbn [map for_each filter].
  - left. exists []. rewrite app_nil_r. split; auto.
  - unfold step at 1 3. rewrite drop_cr_blank. destruct (kept l) eqn:K; cbn [negb].
    + pose proof (parse_line_spec pf l) as P. destruct (parse_line pf (drop_cr l)) as [e|e|]; [| |tauto].
      * destruct P as [P U]. destruct (line_says_valid _ _ _ P) as (_ & _ & _ & ->).
        destruct (IH (embs ++ [e])) as [(es & F & E)|(s & er & E & NF)].
        -- left. exists (e :: es). split; [constructor; auto|]. rewrite E, <- app_assoc. reflexivity.
        -- right. exists s, er. split; [auto|]. intros es F. inversion F; subst. eapply NF; eauto.
      * right. exists embs, e. split; [auto|]. intros es F. inversion F; subst. eapply P; eauto.
    + destruct (IH embs) as [(es & F & E)|(s & er & E & NF)]; [left; eauto|right; eauto].
Qed.

Lemma Forall2_says_fun ls es1 es2 : Forall2 (line_says pf) ls es1 -> Forall2 (line_says pf) ls es2 -> es1 = es2.
Proof.
  intros F. revert es2. induction F as [|l e ls es H F IH]; intros es2 F2; inversion F2 as [|? e2 ? es2' H2 F2']; subst; auto.
  pose proof (parse_line_spec pf l) as P. destruct (parse_line pf (drop_cr l)) as [e0|e0|]; [|exfalso; eapply P; eauto|tauto].
  destruct P as [_ U]. rewrite (U _ H), (U _ H2). f_equal. auto.
Qed.

Lemma load_spec r ls : lines (skipn (rd_pos r) (rd_data r)) ls ->
  (forall embs, load pf r = Ret embs <->
     rd_err r = false /\ Forall (fun l => Z.of_nat (length l) < 65536) ls /\ Forall2 (line_says pf) (filter kept ls) embs) /\
  ((exists embs, load pf r = Ret embs) \/ exists e, load pf r = Err e).
Proof.
  intros HL. unfold load, parse. set (data := skipn (rd_pos r) (rd_data r)) in *.
  pose proof (scan_lines_spec (S (length data)) data ltac:(lia)) as SL. destruct (scan_lines (S (length data)) data) as [out tl].
  destruct SL as (pre & more & HL' & -> & F & E). pose proof (lines_det _ _ HL _ HL') as ->.
  match goal with |- context [for_each ?f [] (map drop_cr pre)] => change f with step end.
  destruct (load_lines pre []) as [(es & F2 & ->)|(s & er & -> & NF)]; cbn [app].
  - destruct tl.
    + destruct E as (l & m & -> & Big). split; [|eauto]. intros embs. split; [discriminate|]. intros (_ & Fa & _).
      apply Forall_app in Fa. destruct Fa as [_ Fa]. inversion Fa; subst. lia.
    + subst more. rewrite app_nil_r. destruct (rd_err r).
      * split; [|eauto]. intros embs. split; [discriminate|]. intros (? & _). discriminate.
      * split; [|eauto]. intros embs. split.
        -- intros [= <-]. auto.
        -- intros (_ & _ & F3). f_equal. eapply Forall2_says_fun; eauto.
  - split; [|eauto]. intros embs. split; [discriminate|]. intros (_ & Fa & F3). exfalso.
    assert (more = [] \/ exists l m, more = l :: m /\ 65536 <= Z.of_nat (length l)) as [->|(l & m & -> & Big)] by (destruct tl; [right; auto|left; auto]).
    + rewrite app_nil_r in F3. eapply NF; eauto.
    + apply Forall_app in Fa. destruct Fa as [_ Fa]. inversion Fa; subst. lia.
Qed.
End L.

(** ** Saved files *)
Definition row_text (w : gostring) (v : list f64) : gostring := w ++ bs " " ++ concat (map (fun x => fmt_f x ++ bs " ") v).

Lemma saved_line_row w v : saved_line w v = row_text w v ++ [x0a].
Proof. unfold saved_line, row_text. rewrite <- !app_assoc. reflexivity. Qed.

Lemma blank_space : is_space [x20]. Proof. unfold is_space, space_encodings. cbn. tauto. Qed.
Lemma nl_space : is_space [x0a]. Proof. unfold is_space, space_encodings. cbn. tauto. Qed.

Lemma in_has_space b l : is_space [b] -> In b l -> has_space l.
Proof. intros Hs Hi. apply in_split in Hi. destruct Hi as (a & c & ->). exists a, [b], c. auto. Qed.

Lemma tokens_row w v : w <> [] -> ~ has_space w -> tokens (row_text w v) (w :: map fmt_f v).
Proof.
  intros Hw Hn. unfold row_text.
  assert (B : forall w' l ws, w' <> [] -> ~ has_space w' -> tokens l ws -> tokens (w' ++ bs " " ++ l) (w' :: ws)).
  { intros w' l ws W1 W2 T. apply tokens_word; auto.
    - right. exists [x20], l. split; [apply blank_space|reflexivity].
    - apply (tokens_space [x20]); [apply blank_space|auto]. }
  apply B; auto. clear w Hw Hn. induction v as [|x v IH]; cbn [map concat]; [constructor|].
  rewrite <- app_assoc. destruct (fmt_f_plain x) as [P N]. apply B; auto. apply plain_no_space. auto.
Qed.

Lemma row_no_nl w v : ~ has_space w -> ~ In x0a (row_text w v).
Proof.
  intros Hn Hi. unfold row_text in Hi. apply in_app_or in Hi. destruct Hi as [Hi|Hi].
  - apply Hn. apply (in_has_space x0a); [apply nl_space|auto].
  - apply in_app_or in Hi. destruct Hi as [Hi|Hi]; [cbn in Hi; destruct Hi as [Hi|[]]; discriminate|].
    apply in_concat in Hi. destruct Hi as (t & Ht & Hi). apply in_map_iff in Ht. destruct Ht as (x & <- & _).
    apply in_app_or in Hi. destruct Hi as [Hi|Hi]; [|cbn in Hi; destruct Hi as [Hi|[]]; discriminate].
    destruct (fmt_f_plain x) as [P _]. rewrite Forall_forall in P. apply (P _ Hi [x0a]); [apply nl_space|reflexivity].
Qed.

Lemma row_kept w v : w <> [] -> ~ has_space w -> kept (row_text w v) = true.
Proof.
  intros Hw Hn. unfold row_text. destruct w as [|b w]; [congruence|]. cbn [app kept]. destruct (byte_eq_dec b " ") as [->|]; [|reflexivity].
  exfalso. apply Hn. apply (in_has_space x20); [apply blank_space|left; reflexivity].
Qed.

Definition row_texts (ws : list gostring) (vs : list (list f64)) : list gostring := map (fun p => row_text (fst p) (snd p)) (combine ws vs).

Lemma saved_lines ws : Forall (fun w => ~ has_space w) ws -> forall vs, lines (saved_text ws vs) (row_texts ws vs).
Proof.
  unfold saved_text, row_texts. induction 1 as [|w ws Hw F IH]; intros vs; [constructor|]. destruct vs as [|v vs]; [constructor|].
  cbn [combine map concat fst snd]. rewrite saved_line_row, <- app_assoc. constructor; [apply row_no_nl; auto|apply IH].
Qed.

Lemma saved_kept ws : Forall (fun w => w <> [] /\ ~ has_space w) ws -> forall vs, filter kept (row_texts ws vs) = row_texts ws vs.
Proof.
  unfold row_texts. induction 1 as [|w ws [H1 H2] F IH]; intros vs; [reflexivity|]. destruct vs as [|v vs]; [reflexivity|].
  cbn [combine map fst snd filter]. rewrite row_kept by auto. f_equal. apply IH.
Qed.

Lemma row_says pf w v e : w <> [] -> ~ has_space w ->
  (line_says pf (row_text w v) e <-> v <> [] /\ e_word e = w /\ Forall2 (fun x y => pf (fmt_f x) = Some y) v (e_vec e) /\
     e_dim e = Z.of_nat (length v) /\ e_norm e = euclid (e_vec e)).
Proof.
  intros Hw Hn. pose proof (tokens_row w v Hw Hn) as T. split.
  - intros (name & nums & T' & N & F & Ew & Ed & En). pose proof (tokens_det _ _ T _ T') as E. injection E as -> <-.
    split; [destruct v; [cbn in N; congruence|discriminate]|]. split; [auto|].
    assert (F' : Forall2 (fun x y => pf (fmt_f x) = Some y) v (e_vec e)).
    { clear - F. remember (map fmt_f v) as ts. revert v Heqts. induction F as [|t y ts ys H F IH]; intros [|x v] Et; try discriminate; constructor.
      - injection Et as -> _. auto.
      - apply IH. injection Et as _ ->. reflexivity. }
    split; [auto|]. rewrite (Forall2_length _ _ _ F'). auto.
  - intros (N & Ew & F & Ed & En). exists w, (map fmt_f v). split; [auto|]. split; [destruct v; [congruence|discriminate]|].
    split. { clear - F. induction F; constructor; auto. }
    split; [auto|]. rewrite <- (Forall2_length _ _ _ F). auto.
Qed.

Lemma load_saved pf ws vs embs : Forall (fun w => w <> [] /\ ~ has_space w) ws -> length vs = length ws ->
  (load pf (file_of (saved_text ws vs)) = Ret embs <->
   Forall (fun l => Z.of_nat (length l) < 65536) (row_texts ws vs) /\
   map e_word embs = ws /\
   Forall2 (fun v e => v <> [] /\ Forall2 (fun x y => pf (fmt_f x) = Some y) v (e_vec e) /\
               e_dim e = Z.of_nat (length v) /\ e_norm e = euclid (e_vec e)) vs embs).
Proof.
  intros W L.
  assert (W' : Forall (fun w => ~ has_space w) ws) by (eapply Forall_impl; [|exact W]; cbn; tauto).
  destruct (load_spec pf (file_of (saved_text ws vs)) (row_texts ws vs)) as [H _]; [apply saved_lines; auto|].
  rewrite H. rewrite saved_kept by auto. cbn [rd_err file_of]. clear H W'.
  assert (Forall2 (line_says pf) (row_texts ws vs) embs <-> map e_word embs = ws /\
   Forall2 (fun v e => v <> [] /\ Forall2 (fun x y => pf (fmt_f x) = Some y) v (e_vec e) /\
               e_dim e = Z.of_nat (length v) /\ e_norm e = euclid (e_vec e)) vs embs) as ->; [|tauto].
  revert vs L embs. induction W as [|w ws [W1 W2] W IH]; intros [|v vs] L embs; try discriminate.
  - split.
    + intros F. inversion F. split; [reflexivity|constructor].
    + intros [E F]. destruct embs; [constructor|discriminate].
  - cbn in L. unfold row_texts. cbn [combine map fst snd]. split.
    + intros F. inversion F as [|? e ? es H F' E1 E2]; subst. apply row_says in H; auto. destruct H as (H1 & H2 & H3).
      destruct (proj1 (IH vs ltac:(lia) es) F') as [I1 I2]. split; [cbn; congruence|]. constructor; tauto.
    + intros [E F]. destruct embs as [|e es]; [discriminate|]. cbn in E. injection E as E1 E2. inversion F as [|? ? ? ? H F']; subst.
      constructor; [apply row_says; tauto|]. apply (IH vs ltac:(lia) es). auto.
Qed.

Lemma load_saved_err pf ws vs : Forall (fun w => w <> [] /\ ~ has_space w) ws -> length vs = length ws ->
  (Exists (fun l => 65536 <= Z.of_nat (length l)) (row_texts ws vs) \/ Exists (fun v => v = []) vs) ->
  exists e, load pf (file_of (saved_text ws vs)) = Err e.
Proof.
  intros W L H. assert (W' : Forall (fun w => ~ has_space w) ws) by (eapply Forall_impl; [|exact W]; cbn; tauto).
  destruct (load_spec pf (file_of (saved_text ws vs)) (row_texts ws vs)) as [_ [(embs & E)|E]]; [apply saved_lines; auto| |auto].
  exfalso. apply load_saved in E; auto. destruct E as (F & _ & F2). destruct H as [H|H].
  - apply Exists_exists in H. destruct H as (l & Hl & Hb). rewrite Forall_forall in F. specialize (F _ Hl). cbn in F. lia.
  - apply Exists_exists in H. destruct H as (v & Hv & ->). clear - Hv F2. induction F2 as [|? ? ? ? [H _] _ IH]; [destruct Hv|]. destruct Hv as [->|Hv]; auto.
Qed.

Lemma row_texts_len ws : forall vs, length vs = length ws ->
  (Forall (fun l => Z.of_nat (length l) < 65536) (row_texts ws vs) <->
   Forall2 (fun w v => Z.of_nat (length (saved_line w v)) <= 65536) ws vs).
Proof.
  induction ws as [|w ws IH]; intros [|v vs] L; try discriminate; unfold row_texts; cbn [combine map fst snd].
  - split; constructor.
  - assert (E : length (saved_line w v) = S (length (row_text w v))) by (rewrite saved_line_row, app_length; cbn; lia).
    cbn in L. specialize (IH vs ltac:(lia)). unfold row_texts in IH. split; intros F; inversion F; subst; constructor; try lia; apply IH; auto.
Qed.

Lemma distinct_words (P : gostring -> Prop) ws : Forall P ws -> Forall P (distinct ws).
Proof. rewrite !Forall_forall. intros H w Hw. apply H. apply In_distinct. auto. Qed.

Lemma save_load pf cut ws dim rows verbose lb : reads_decimals pf -> (forall t, concat (cut t) = t) ->
  verbose = false \/ lb <> 0 -> (1 <= dim)%nat -> Forall (fun w => w <> [] /\ ~ has_space w) ws ->
  all_len dim rows -> length rows = length (distinct ws) ->
  Forall2 (fun w v => Z.of_nat (length (saved_line w v)) <= 65536) (distinct ws) rows ->
  exists embs,
    load pf (file_of (fst (save good_writer cut (dict_add dict_new ws) (of_rows dim rows) verbose lb []))) = Ret embs /\
    map e_word embs = distinct ws /\
    Forall2 (fun v e => e_dim e = Z.of_nat dim /\ Forall2 (fun x y => pf (fmt_f x) = Some y) v (e_vec e) /\
    e_norm e = euclid (e_vec e)) rows embs.
Proof.
  intros R Hc Hv Hd W A L B. rewrite save_ok by auto. cbn [fst]. rewrite bufio_good, Hc. cbn [app].
  set (rd := fun x => match pf (fmt_f x) with Some y => y | None => x end).
  assert (Rd : forall x, pf (fmt_f x) = Some (rd x)).
  { intros x. unfold rd. destruct (round_trip pf R x) as (y & -> & _). reflexivity. }
  exists (map (fun p => Emb (fst p) (Z.of_nat dim) (map rd (snd p)) (euclid (map rd (snd p)))) (combine (distinct ws) rows)).
  assert (M : forall v, Forall2 (fun x y => pf (fmt_f x) = Some y) v (map rd v)) by (induction v; constructor; auto).
  split; [|split].
  - apply load_saved; [apply distinct_words; auto|auto|]. split; [apply row_texts_len; auto|]. clear B W. revert L A. generalize (distinct ws). clear ws.
    induction rows as [|v rows IH]; intros [|w ws] L A; try discriminate; cbn [combine map]; [split; constructor|].
    inversion A; subst. destruct (IH ws) as [I1 I2]; auto. split; [cbn; f_equal; auto|].
    constructor; auto. cbn [e_vec e_dim e_norm fst snd]. split; [destruct v; [cbn in Hd; lia|discriminate]|]. auto.
  - rewrite map_map. cbn [e_word]. revert L. generalize (distinct ws). intros l. clear. revert rows. induction l as [|w l IH]; intros [|v rows] L; try discriminate; [reflexivity|].
    cbn. f_equal. apply IH. cbn in L. lia.
  - clear B W. revert L A. generalize (distinct ws). clear ws.
    induction rows as [|v rows IH]; intros [|w ws] L A; try discriminate; cbn [combine map]; [constructor|].
    inversion A; subst. constructor; [|apply IH; auto]. cbn [e_vec e_dim e_norm fst snd]. auto.
Qed.

Lemma save_unloadable pf cut ws dim rows verbose lb : (forall t, concat (cut t) = t) ->
  verbose = false \/ lb <> 0 -> Forall (fun w => w <> [] /\ ~ has_space w) ws ->
  all_len dim rows -> length rows = length (distinct ws) ->
  (dim = 0%nat /\ ws <> []) \/ ~ Forall2 (fun w v => Z.of_nat (length (saved_line w v)) <= 65536) (distinct ws) rows ->
  exists e, load pf (file_of (fst (save good_writer cut (dict_add dict_new ws) (of_rows dim rows) verbose lb []))) = Err e.
Proof.
  intros Hc Hv W A L H. rewrite save_ok by auto. cbn [fst]. rewrite bufio_good, Hc. cbn [app].
  assert (WD : Forall (fun w => w <> [] /\ ~ has_space w) (distinct ws)) by (apply distinct_words; auto).
  apply load_saved_err; auto. destruct H as [[-> N]|H].
  - right. apply Exists_exists. destruct rows as [|v rows].
    + destruct ws; [congruence|discriminate].
    + exists v. split; [left; reflexivity|]. inversion A; subst. destruct v; [reflexivity|discriminate].
  - left. rewrite <- (row_texts_len (distinct ws) rows L) in H.
    apply neg_Forall_Exists_neg in H; [|intros l; destruct (Z_lt_dec (Z.of_nat (length l)) 65536); [left|right]; auto].
    eapply Exists_impl; [|exact H]. cbn. intros l Hl. lia.
Qed.
