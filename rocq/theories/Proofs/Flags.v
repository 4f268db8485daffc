(** * Parsing command lines: lemmas for C89 and C90 *)
From Coq Require Import Lia.
From Verif.Lib Require Import Go F64.
From Verif.Spec Require Import CommandLine.
From Verif.Model Require Import Options Flags.
Local Open Scope Z_scope.

Lemma gseqb_spec a b : gseqb a b = true <-> a = b.
Proof. unfold gseqb. destruct (gostring_eq_dec a b); split; congruence. Qed.
Lemma gseqb_refl a : gseqb a a = true.
Proof. apply gseqb_spec. reflexivity. Qed.
Lemma same_short_spec a c : same_short a (Some c) = true <-> a = Some c.
Proof. unfold same_short. destruct a as [x|]; [|split; discriminate]. destruct (byte_eq_dec x c); split; congruence. Qed.

Lemma beqb_refl b : Byte.eqb b b = true.
Proof. apply Byte.byte_dec_lb. reflexivity. Qed.
Lemma beqb_neq b c : b <> c -> Byte.eqb b c = false.
Proof. intros H. destruct (Byte.eqb b c) eqn:E; [|reflexivity]. apply Byte.byte_dec_bl in E. contradiction. Qed.
Lemma beqb_false b c : Byte.eqb b c = false -> b <> c.
Proof. intros E ->. rewrite beqb_refl in E. discriminate E. Qed.
Lemma beqb_sym b c : Byte.eqb b c = Byte.eqb c b.
Proof. destruct (Byte.eqb b c) eqn:E; [apply Byte.byte_dec_bl in E; subst; symmetry; apply beqb_refl|]. symmetry. apply beqb_neq. intros ->. rewrite beqb_refl in E. discriminate E. Qed.
Lemma head_is_iff b s : head_is b s = true <-> exists t, s = b :: t.
Proof.
  destruct s as [|c s]; cbn [head_is]; [split; [discriminate|intros (t & E); discriminate E]|].
  split; [intros E; apply Byte.byte_dec_bl in E; subst; eauto|intros (t & E); injection E as -> _; apply beqb_refl].
Qed.

(** ** Registration *)
Definition syn {St} (f : flag St) : gostring * option byte := (fl_name f, fl_short f).
Definition clash (a b : gostring * option byte) : bool := gseqb (fst a) (fst b) || same_short (snd a) (snd b).
Fixpoint clash_free (l : list (gostring * option byte)) : bool :=
  match l with
  | [] => true
  | a :: l' => negb (existsb (fun b => clash a b) l') && clash_free l'
  end.

Lemma add_flags_ok {St} (rs : list (registration St)) fs s :
  clash_free (map syn fs ++ map (fun r => syn (fst r)) rs) = true ->
  add_flags rs (fs, s) = Ret (fs ++ map fst rs, fold_left (fun s r => snd r s) rs s).
Proof.
  revert fs s. induction rs as [|[f d] rs IH]; intros fs s H; cbn [add_flags map fold_left fst snd].
  - rewrite app_nil_r. reflexivity.
  - assert (E : existsb (fun g => gseqb (fl_name g) (fl_name f) || same_short (fl_short g) (fl_short f)) fs = false).
    { apply Bool.not_true_is_false. intros E. apply existsb_exists in E. destruct E as (g & Hg & Hc).
      clear IH. induction fs as [|g' fs IHf]; [destruct Hg|]. cbn in H. apply andb_prop in H. destruct H as [H1 H2].
      destruct Hg as [->|Hg]; [|auto]. apply Bool.negb_true_iff in H1.
      assert (HT : existsb (fun b => clash (syn g) b) (map syn fs ++ syn f :: map (fun r => syn (fst r)) rs) = true).
      { apply existsb_exists. exists (syn f). split; [apply in_or_app; right; left; reflexivity|exact Hc]. }
      congruence. }
    unfold add_flag. cbn [fst snd]. rewrite E. cbn [obind]. rewrite IH; [rewrite <- app_assoc; reflexivity|].
    rewrite map_app, <- app_assoc. exact H.
Qed.

(** ** Parsing *)
Definition to_opt_ok {St} (f : flag St) (o : opt) : Prop :=
  fl_name f = bs (o_name o) /\ fl_short f = o_short o /\ (fl_switch f = true <-> o_kind o = Switch).

(** Names that can be written: not empty, no [=], not beginning with a dash. *)
Definition good_name (n : gostring) : bool :=
  match n with
  | [] => false
  | b :: _ => negb (Byte.eqb b x2d) && negb (existsb (Byte.eqb x3d) n)
  end.

Lemma forall2_l {A B} (R : A -> B -> Prop) l l' a : Forall2 R l l' -> In a l -> exists b, In b l' /\ R a b.
Proof.
  induction 1 as [|x y l l' H _ IH]; intros HI; [destruct HI|].
  destruct HI as [<-|HI]; [exists y; split; [left; reflexivity|exact H]|]. destruct (IH HI) as (o & P & Q). exists o. split; [right; exact P|exact Q].
Qed.
Lemma forall2_r {A B} (R : A -> B -> Prop) l l' b : Forall2 R l l' -> In b l' -> exists a, In a l /\ R a b.
Proof.
  induction 1 as [|x y l l' H _ IH]; intros HI; [destruct HI|].
  destruct HI as [<-|HI]; [exists x; split; [left; reflexivity|exact H]|]. destruct (IH HI) as (o & P & Q). exists o. split; [right; exact P|exact Q].
Qed.

Section Parse.
Context {St : Type} (fs : list (flag St)) (os : list opt).
Hypothesis Hos : Forall2 to_opt_ok fs os.
Hypothesis Hfree : clash_free (map syn fs) = true.
Hypothesis Hname : forallb (fun f => good_name (fl_name f)) fs = true.

Definition named (l : list (flag St * gostring)) : list (gostring * gostring) := map (fun p => (fl_name (fst p), snd p)) l.
Definition known (l : list (flag St * gostring)) : Prop := Forall (fun p => In (fst p) fs) l.

Lemma opt_of f : In f fs -> exists o, In o os /\ to_opt_ok f o.
Proof. exact (forall2_l _ fs os f Hos). Qed.
Lemma flag_of o : In o os -> exists f, In f fs /\ to_opt_ok f o.
Proof. exact (forall2_r _ fs os o Hos). Qed.

Lemma find_unique (p : flag St -> bool) f : In f fs -> p f = true ->
  (forall a b, In a fs -> In b fs -> p a = true -> p b = true -> clash (syn a) (syn b) = true) -> find p fs = Some f.
Proof.
  intros HI Hp HC. clear Hos Hname. revert Hfree HI HC. induction fs as [|g l IH]; intros HF HI HC; [destruct HI|]. cbn in HF. apply andb_prop in HF. destruct HF as [H1 H2].
  cbn [find]. destruct HI as [->|HI]; [rewrite Hp; reflexivity|].
  destruct (p g) eqn:Eg; [|apply IH; auto; intros; apply HC; auto; right; assumption].
  apply Bool.negb_true_iff in H1. exfalso.
  assert (existsb (fun b => clash (syn g) b) (map syn l) = true); [|congruence].
  apply existsb_exists. exists (syn f). split; [apply in_map; exact HI|]. apply HC; auto; [left; reflexivity|right; exact HI].
Qed.

Lemma find_long_some f : In f fs -> find_long fs (fl_name f) = Some f.
Proof.
  intros HI. unfold find_long. apply find_unique; [exact HI|apply gseqb_refl|].
  intros a b _ _ Ha Hb. apply gseqb_spec in Ha, Hb. unfold clash, syn. cbn [fst]. rewrite Ha, Hb, gseqb_refl. reflexivity.
Qed.
Lemma find_short_some f c : In f fs -> fl_short f = Some c -> find_short fs c = Some f.
Proof.
  intros HI Hc. unfold find_short. apply find_unique; [exact HI|apply same_short_spec; exact Hc|].
  intros a b _ _ Ha Hb. apply same_short_spec in Ha, Hb. unfold clash, syn. cbn [snd]. rewrite Ha, Hb.
  apply Bool.orb_true_iff. right. apply same_short_spec. reflexivity.
Qed.
Lemma find_long_in n f : find_long fs n = Some f -> In f fs /\ fl_name f = n.
Proof. unfold find_long. intros E. apply find_some in E. destruct E as [A B]. apply gseqb_spec in B. auto. Qed.
Lemma find_short_in c f : find_short fs c = Some f -> In f fs /\ fl_short f = Some c.
Proof. unfold find_short. intros E. apply find_some in E. destruct E as [A B]. apply same_short_spec in B. auto. Qed.

Lemma test_prefix_spec s : test_prefix s = true <-> is_test s.
Proof.
  unfold test_prefix, is_test. rewrite gseqb_spec. split.
  - intros E. exists (skipn 5 s). rewrite <- E. symmetry. apply firstn_skipn.
  - intros (t & ->). reflexivity.
Qed.

Lemma split_eq_spec s n v : split_eq s = (n, v) -> existsb (Byte.eqb x3d) n = false /\
  match v with None => s = n | Some w => s = n ++ x3d :: w end.
Proof.
  revert n v. induction s as [|b s IH]; intros n v; cbn [split_eq].
  - intros E. injection E as <- <-. auto.
  - destruct (Byte.eqb b x3d) eqn:Eb.
    + apply Byte.byte_dec_bl in Eb. subst b. intros E. injection E as <- <-. auto.
    + destruct (split_eq s) as [n' v'] eqn:Es. specialize (IH n' v' eq_refl). destruct IH as [A B].
      intros E. injection E as <- <-. split.
      * cbn [existsb]. rewrite A, beqb_sym, Eb. reflexivity.
      * destruct v'; cbn; congruence.
Qed.
Lemma split_eq_name n v : existsb (Byte.eqb x3d) n = false -> split_eq (n ++ x3d :: v) = (n, Some v) /\ split_eq n = (n, None).
Proof.
  induction n as [|b n IH]; intros H; [split; reflexivity|]. cbn [existsb] in H. apply Bool.orb_false_iff in H. destruct H as [H1 H2]. destruct (IH H2) as [A B].
  cbn [app split_eq]. rewrite beqb_sym, H1, A, B. split; reflexivity.
Qed.

Lemma name_good f : In f fs -> good_name (fl_name f) = true.
Proof. intros HI. rewrite forallb_forall in Hname. exact (Hname f HI). Qed.

(** What one argument does, for a long option. *)
Lemma long_arg_name f : In f fs -> forall v,
  long_arg fs (fl_name f ++ bs "=" ++ v) = Ret ([(f, v)], None) /\
  long_arg fs (fl_name f) = (if fl_switch f then Ret ([(f, bs "true")], None) else Ret ([], Some f)).
Proof.
  intros HI v. pose proof (name_good f HI) as G. unfold good_name in G. destruct (fl_name f) as [|b n] eqn:En; [discriminate G|].
  apply andb_prop in G. destruct G as [G1 G2]. apply Bool.negb_true_iff in G1, G2. pose proof (find_long_some f HI) as F. rewrite En in F.
  change (bs "=" ++ v) with (x3d :: v). destruct (split_eq_name (b :: n) v G2) as [S1 S2].
  assert (G3 : Byte.eqb b x3d = false) by (cbn [existsb] in G2; apply Bool.orb_false_iff in G2; rewrite beqb_sym; tauto).
  unfold long_arg. rewrite S1, S2, F. cbn [app length Nat.eqb head_is orb]. rewrite G1, G3. cbn [orb]. split; reflexivity.
Qed.

Lemma long_arg_inv s l p : long_arg fs s = Ret (l, p) ->
  exists f, In f fs /\
   ((exists v, s = fl_name f ++ bs "=" ++ v /\ l = [(f, v)] /\ p = None) \/
    (s = fl_name f /\ fl_switch f = true /\ l = [(f, bs "true")] /\ p = None) \/
    (s = fl_name f /\ fl_switch f = false /\ l = [] /\ p = Some f)).
Proof.
  unfold long_arg. destruct (_ || _); [intros E; discriminate E|].
  destruct (split_eq s) as [n v] eqn:Es. destruct (split_eq_spec _ _ _ Es) as [_ Hv]. intros E'.
  destruct (find_long fs n) as [f|] eqn:Ef; [|discriminate E']. destruct (find_long_in _ _ Ef) as [HI Hn]. exists f. split; [exact HI|]. rewrite Hn.
  destruct v as [v|].
  - injection E' as <- <-. left. exists v. auto.
  - destruct (fl_switch f) eqn:Ew; injection E' as <- <-; right; [left|right]; auto.
Qed.

Lemma has_equal_iff s : (2 <=? length s)%nat && head_is x3d s = true <-> has_equal s.
Proof.
  unfold has_equal. rewrite Bool.andb_true_iff, head_is_iff. split.
  - intros [A (t & ->)]. destruct t as [|b t]; [discriminate A|]. eauto.
  - intros (b & t & ->). split; [reflexivity|eauto].
Qed.

(** The same for letters: [p] says whether the next argument is used up. *)
Lemma short_arg_sound s l p : short_arg fs s = Ret (l, p) -> forall args,
  match p with
  | None => letters os s args (named l) args
  | Some f => In f fs /\ forall v, letters os s (v :: args) (named (l ++ [(f, v)])) args
  end /\ known l.
Proof.
  revert l p. induction s as [|c s IH]; intros l p E args; cbn [short_arg] in E.
  - injection E as <- <-. split; [constructor|constructor].
  - destruct (test_prefix (c :: s)) eqn:Et; [injection E as <- <-; split; [apply l_test; apply test_prefix_spec; exact Et|constructor]|].
    assert (Ht : ~ is_test (c :: s)) by (intros Ht; apply test_prefix_spec in Ht; congruence).
    destruct (find_short fs c) as [f|] eqn:Ef; [|discriminate E]. destruct (find_short_in _ _ Ef) as [HI Hc].
    destruct (opt_of f HI) as (o & Ho & On & Osh & Osw). rewrite Hc in Osh. symmetry in Osh.
    destruct ((2 <=? length s)%nat && head_is x3d s) eqn:Eh.
    + apply has_equal_iff in Eh. destruct Eh as (b & t & ->). cbn [tl] in E. injection E as <- <-.
      split; [|repeat constructor; exact HI]. cbn. rewrite On. apply l_equal; auto. discriminate.
    + assert (He : ~ has_equal s) by (intros He; apply has_equal_iff in He; congruence). pose proof E as E'. clear E.
      revert E'.
      destruct (fl_switch f) eqn:Ew; intros E'.
      * destruct (short_arg fs s) as [[l1 p1]|e|] eqn:E1; cbn [obind] in E'; try discriminate E'. injection E' as <- <-.
        specialize (IH l1 p1 eq_refl). assert (Hk : o_kind o = Switch) by (apply Osw; reflexivity).
        split; [|constructor; [exact HI|exact (proj2 (IH args))]].
        destruct p1 as [g|].
        -- destruct (IH args) as [[Hg Hl] _]. split; [exact Hg|]. intros v. cbn [app named map fst snd]. rewrite On. eapply l_switch; eauto.
        -- destruct (IH args) as [Hl _]. cbn [named map fst snd]. rewrite On. eapply l_switch; eauto.
      * assert (Hk : o_kind o <> Switch) by (intros Hk; apply Osw in Hk; discriminate Hk).
        destruct s as [|b s].
        -- injection E' as <- <-. split; [|constructor]. split; [exact HI|]. intros v. cbn. rewrite On. apply l_next; auto.
        -- injection E' as <- <-. split; [|repeat constructor; exact HI]. cbn. rewrite On. apply l_attached; auto. discriminate.
Qed.

Lemma short_arg_complete s args st args' : letters os s args st args' ->
  exists l p, short_arg fs s = Ret (l, p) /\ known l /\
    match p with
    | None => named l = st /\ args' = args
    | Some f => In f fs /\ exists v, args = v :: args' /\ named (l ++ [(f, v)]) = st
    end.
Proof.
  induction 1 as [args|s args Ht|o c v args Ho Hc Hv|o c v args Ho Hc Hk Hv He Ht|o c v args Ho Hc Hk|o c s args st args' Ho Hc Hk He Ht HL IH].
  - exists [], None. repeat split. constructor.
  - exists [], None. destruct Ht as (t & ->). repeat split. constructor.
  - destruct (flag_of o Ho) as (f & HI & On & Osh & Osw). rewrite Hc in Osh. exists [(f, v)], None.
    destruct v as [|b v]; [contradiction Hv; reflexivity|]. cbn [short_arg]. rewrite (find_short_some f c HI Osh).
    assert (Et : test_prefix (c :: x3d :: b :: v) = false).
    { apply Bool.not_true_is_false. intros E. apply test_prefix_spec in E. destruct E as (t & E). discriminate E. }
    rewrite Et. split; [reflexivity|]. split; [repeat constructor; exact HI|]. cbn. rewrite On. auto.
  - destruct (flag_of o Ho) as (f & HI & On & Osh & Osw). rewrite Hc in Osh. exists [(f, v)], None.
    cbn [short_arg]. rewrite (find_short_some f c HI Osh).
    assert (Et : test_prefix (c :: v) = false) by (apply Bool.not_true_is_false; intros E; apply test_prefix_spec in E; auto). rewrite Et.
    assert (Ew : fl_switch f = false) by (destruct (fl_switch f); [exfalso; apply Hk; apply Osw; reflexivity|reflexivity]).
    split; [|split; [repeat constructor; exact HI|cbn; rewrite On; auto]].
    rewrite Ew. assert (Eh : (2 <=? length v)%nat && head_is x3d v = false) by (apply Bool.not_true_is_false; rewrite has_equal_iff; exact He).
    rewrite Eh. destruct v; [contradiction Hv; reflexivity|reflexivity].
  - destruct (flag_of o Ho) as (f & HI & On & Osh & Osw). rewrite Hc in Osh. exists [], (Some f).
    assert (Ew : fl_switch f = false) by (destruct (fl_switch f); [exfalso; apply Hk; apply Osw; reflexivity|reflexivity]).
    cbn [short_arg]. rewrite (find_short_some f c HI Osh), Ew.
    assert (Et : test_prefix [c] = false) by (apply Bool.not_true_is_false; intros E; apply test_prefix_spec in E; destruct E as (t & E); discriminate E). rewrite Et.
    split; [reflexivity|]. split; [constructor|]. split; [exact HI|]. exists v. cbn. rewrite On. auto.
  - destruct (flag_of o Ho) as (f & HI & On & Osh & Osw). rewrite Hc in Osh. destruct IH as (l & p & E & Hkn & Hp).
    exists ((f, bs "true") :: l), p. cbn [short_arg]. rewrite (find_short_some f c HI Osh).
    assert (Et : test_prefix (c :: s) = false) by (apply Bool.not_true_is_false; intros E'; apply test_prefix_spec in E'; auto). rewrite Et.
    assert (Ew : fl_switch f = true) by (apply Osw; exact Hk). rewrite Ew, E. cbn [obind].
    assert (Eh : (2 <=? length s)%nat && head_is x3d s = false) by (apply Bool.not_true_is_false; rewrite has_equal_iff; exact He).
    rewrite Eh. split; [reflexivity|].
    split; [constructor; [exact HI|exact Hkn]|]. destruct p as [g|].
    + destruct Hp as [Hg (v & -> & <-)]. split; [exact Hg|]. exists v. split; [reflexivity|]. cbn. rewrite On. reflexivity.
    + destruct Hp as [<- ->]. cbn. rewrite On. auto.
Qed.

Lemma named_app l l' : named (l ++ l') = named l ++ named l'.
Proof. apply map_app. Qed.

(** The whole command line. *)
Lemma parse_args_sound n : forall args l pos, (length args <= n)%nat -> parse_args fs args = Ret (l, pos) ->
  command_line os args (named l) pos /\ known l.
Proof.
  induction n as [|n IH]; intros args l pos Hn E.
  - destruct args; [|cbn in Hn; lia]. injection E as <- <-. split; constructor.
  - destruct args as [|a rest]; [injection E as <- <-; split; constructor|]. cbn [length] in Hn.
    cbn [parse_args] in E.
    set (go := fun r : outcome (sets (St:=St)) => obind r (fun '(l, p) =>
        match p with
        | None => obind (parse_args fs rest) (fun '(ls, ps) => Ret (l ++ ls, ps))
        | Some f => match rest with
                    | [] => Err "flag needs an argument"
                    | v :: rest' => obind (parse_args fs rest') (fun '(ls, ps) => Ret (l ++ (f, v) :: ls, ps))
                    end
        end)).
    assert (Cases : (a = [x2d; x2d] /\ Ret ([], rest) = Ret (l, pos)) \/
                    (exists s, a = x2d :: x2d :: s /\ go (long_arg fs s) = Ret (l, pos)) \/
                    (exists s, a = x2d :: s /\ s <> [] /\ (forall t, s <> x2d :: t) /\ go (short_arg fs s) = Ret (l, pos)) \/
                    (is_word a /\ obind (parse_args fs rest) (fun '(ls, ps) => Ret (ls, a :: ps)) = Ret (l, pos))).
    { destruct (negb (head_is x2d a) || (length a =? 1)%nat) eqn:E1.
      { right. right. right. split; [|exact E]. apply Bool.orb_true_iff in E1. destruct E1 as [E1|E1].
        - right. intros s ->. discriminate E1.
        - destruct a as [|b [|b2 a]]; try discriminate E1. destruct (Byte.byte_eq_dec b x2d) as [->|Hb]; [left; reflexivity|].
          right. intros s Hs. injection Hs as Hs _. contradiction. }
      apply Bool.orb_false_iff in E1. destruct E1 as [E1 E2]. apply Bool.negb_false_iff in E1. apply head_is_iff in E1. destruct E1 as (a' & ->).
      cbn [tl] in E. destruct (head_is x2d a') eqn:E3.
      - apply head_is_iff in E3. destruct E3 as (s & ->). destruct s as [|b s]; [left; split; [reflexivity|exact E]|].
        right. left. exists (b :: s). split; [reflexivity|exact E].
      - right. right. left. exists a'. split; [reflexivity|]. split; [destruct a'; [discriminate E2|discriminate]|].
        split; [intros t ->; cbn in E3; discriminate E3|]. exact E. }
    clear E. destruct Cases as [[-> E]|[(s & -> & E)|[(s & -> & Hs & Hd & E)|[Hw E]]]].
    + injection E as <- <-. split; [apply cl_stop|constructor].
    + unfold go in E. destruct (long_arg fs s) as [[l1 p]|e|] eqn:El; cbn [obind] in E; try discriminate E.
      destruct (long_arg_inv _ _ _ El) as (f & HI & Hf). destruct (opt_of f HI) as (o & Ho & On & Osh & Osw).
      destruct Hf as [(v & -> & -> & ->)|[(-> & Hw & -> & ->)|(-> & Hw & -> & ->)]].
      * destruct (parse_args fs rest) as [[ls ps]|e|] eqn:Er; cbn [obind] in E; try discriminate E. injection E as <- <-.
        destruct (IH rest ls ps ltac:(lia) Er) as [A B]. split; [|constructor; [exact HI|exact B]].
        cbn [app named map fst snd]. rewrite On. change (x2d :: x2d :: bs (o_name o) ++ bs "=" ++ v) with (bs "--" ++ bs (o_name o) ++ bs "=" ++ v).
        apply cl_equal; assumption.
      * destruct (parse_args fs rest) as [[ls ps]|e|] eqn:Er; cbn [obind] in E; try discriminate E. injection E as <- <-.
        destruct (IH rest ls ps ltac:(lia) Er) as [A B]. split; [|constructor; [exact HI|exact B]].
        cbn [app named map fst snd]. rewrite On. change (x2d :: x2d :: bs (o_name o)) with (bs "--" ++ bs (o_name o)).
        apply cl_switch; [assumption|apply Osw; exact Hw|assumption].
      * destruct rest as [|v rest']; [discriminate E|]. destruct (parse_args fs rest') as [[ls ps]|e|] eqn:Er; cbn [obind] in E; try discriminate E. injection E as <- <-.
        cbn [length] in Hn. destruct (IH rest' ls ps ltac:(lia) Er) as [A B]. split; [|constructor; [exact HI|exact B]].
        cbn [app named map fst snd]. rewrite On. change (x2d :: x2d :: bs (o_name o)) with (bs "--" ++ bs (o_name o)).
        apply cl_next; [assumption|intros Hk; apply Osw in Hk; congruence|assumption].
    + unfold go in E. destruct (short_arg fs s) as [[l1 p]|e|] eqn:El; cbn [obind] in E; try discriminate E. destruct p as [f|].
      * destruct rest as [|v rest']; [discriminate E|]. destruct (parse_args fs rest') as [[ls ps]|e|] eqn:Er; cbn [obind] in E; try discriminate E. injection E as <- <-.
        cbn [length] in Hn. destruct (IH rest' ls ps ltac:(lia) Er) as [A B].
        destruct (short_arg_sound _ _ _ El rest') as [[Hf HL] HK]. specialize (HL v).
        split; [|apply Forall_app; split; [exact HK|constructor; [exact Hf|exact B]]].
        replace (named (l1 ++ (f, v) :: ls)) with (named (l1 ++ [(f, v)]) ++ named ls) by (rewrite <- named_app, <- app_assoc; reflexivity).
        eapply cl_letters; eauto.
      * destruct (parse_args fs rest) as [[ls ps]|e|] eqn:Er; cbn [obind] in E; try discriminate E. injection E as <- <-.
        destruct (IH rest ls ps ltac:(lia) Er) as [A B]. destruct (short_arg_sound _ _ _ El rest) as [HL HK].
        split; [|apply Forall_app; auto]. rewrite named_app. eapply cl_letters; eauto.
    + destruct (parse_args fs rest) as [[ls ps]|e|] eqn:Er; cbn [obind] in E; try discriminate E. injection E as <- <-.
      destruct (IH rest ls ps ltac:(lia) Er) as [A B]. split; [apply cl_word; assumption|exact B].
Qed.

Lemma parse_args_complete args st pos : command_line os args st pos ->
  exists l, parse_args fs args = Ret (l, pos) /\ named l = st /\ known l.
Proof.
  induction 1 as [|args|a args st pos Hw H IH|o v args st pos Ho H IH|o v args st pos Ho Hk H IH|o args st pos Ho Hk H IH|s args st1 args' st pos Hs Hd HL H IH].
  - exists []. repeat split. constructor.
  - exists []. repeat split. constructor.
  - destruct IH as (l & E & Hn & HK). exists l. split; [|auto]. cbn [parse_args]. rewrite E. cbn [obind].
    destruct Hw as [->|Hw]; [reflexivity|]. assert (E3 : head_is x2d a = false) by (apply Bool.not_true_is_false; rewrite head_is_iff; intros (t & ->); exact (Hw t eq_refl)). rewrite E3. reflexivity.
  - destruct IH as (l & E & Hn & HK). destruct (flag_of o Ho) as (f & HI & On & Osh & Osw). exists ((f, v) :: l).
    split; [|split; [rewrite <- Hn; cbn; rewrite On; reflexivity|constructor; assumption]].
    destruct (long_arg_name f HI v) as [L1 _]. rewrite On in L1. pose proof (name_good f HI) as G. rewrite On in G.
    change (bs "--" ++ bs (o_name o) ++ bs "=" ++ v) with (x2d :: x2d :: bs (o_name o) ++ bs "=" ++ v).
    destruct (bs (o_name o)) as [|b n]; [discriminate G|]. cbn [parse_args tl]. change (head_is x2d (x2d :: x2d :: (b :: n) ++ bs "=" ++ v)) with true. change (head_is x2d (x2d :: (b :: n) ++ bs "=" ++ v)) with true. cbn [negb orb length app Nat.eqb andb]. cbn [app] in L1. rewrite L1. cbn [obind]. rewrite E. reflexivity.
  - destruct IH as (l & E & Hn & HK). destruct (flag_of o Ho) as (f & HI & On & Osh & Osw). exists ((f, v) :: l).
    split; [|split; [rewrite <- Hn; cbn; rewrite On; reflexivity|constructor; assumption]].
    destruct (long_arg_name f HI v) as [_ L1]. rewrite On in L1. pose proof (name_good f HI) as G. rewrite On in G.
    change (bs "--" ++ bs (o_name o)) with (x2d :: x2d :: bs (o_name o)).
    assert (Ew : fl_switch f = false) by (destruct (fl_switch f); [exfalso; apply Hk; apply Osw; reflexivity|reflexivity]). rewrite Ew in L1.
    destruct (bs (o_name o)) as [|b n]; [discriminate G|]. cbn [parse_args tl]. change (head_is x2d (x2d :: x2d :: b :: n)) with true. change (head_is x2d (x2d :: b :: n)) with true. cbn [negb orb length Nat.eqb andb]. rewrite L1. cbn [obind]. rewrite E. reflexivity.
  - destruct IH as (l & E & Hn & HK). destruct (flag_of o Ho) as (f & HI & On & Osh & Osw). exists ((f, bs "true") :: l).
    split; [|split; [rewrite <- Hn; cbn; rewrite On; reflexivity|constructor; assumption]].
    destruct (long_arg_name f HI []) as [_ L1]. rewrite On in L1. pose proof (name_good f HI) as G. rewrite On in G.
    change (bs "--" ++ bs (o_name o)) with (x2d :: x2d :: bs (o_name o)).
    assert (Ew : fl_switch f = true) by (apply Osw; exact Hk). rewrite Ew in L1.
    destruct (bs (o_name o)) as [|b n]; [discriminate G|]. cbn [parse_args tl]. change (head_is x2d (x2d :: x2d :: b :: n)) with true. change (head_is x2d (x2d :: b :: n)) with true. cbn [negb orb length Nat.eqb andb]. rewrite L1. cbn [obind]. rewrite E. reflexivity.
  - destruct IH as (l & E & Hn & HK). destruct (short_arg_complete _ _ _ _ HL) as (l1 & p & E1 & HK1 & Hp).
    destruct s as [|b s]; [contradiction Hs; reflexivity|].
    assert (Hb : Byte.eqb b x2d = false) by (apply beqb_neq; intros ->; exact (Hd s eq_refl)).
    destruct p as [f|].
    + destruct Hp as [Hf (v & -> & <-)]. exists (l1 ++ (f, v) :: l).
      split; [|split; [change ((f, v) :: l) with ([(f, v)] ++ l); rewrite app_assoc, named_app, Hn; reflexivity|apply Forall_app; split; [exact HK1|constructor; assumption]]].
      cbn [parse_args tl]. change (head_is x2d (x2d :: b :: s)) with true. cbn [negb orb length Nat.eqb head_is]. rewrite Hb. cbn [andb]. rewrite E1. cbn [obind]. rewrite E. reflexivity.
    + destruct Hp as [<- ->]. exists (l1 ++ l). split; [|split; [rewrite named_app, Hn; reflexivity|apply Forall_app; auto]].
      cbn [parse_args tl]. change (head_is x2d (x2d :: b :: s)) with true. cbn [negb orb length Nat.eqb head_is]. rewrite Hb. cbn [andb]. rewrite E1. cbn [obind]. rewrite E. reflexivity.
Qed.
End Parse.

(** ** Values *)
Lemma last_value_snoc st n v name : last_value name (st ++ [(n, v)]) = if gseqb n name then Some v else last_value name st.
Proof.
  induction st as [|[m w] st IH]; cbn [app last_value]; [reflexivity|]. rewrite IH. destruct (gseqb n name); reflexivity.
Qed.
Lemma given_same {A} (parse : gostring -> option A) st n d x v : parse v = Some x -> given parse (st ++ [(bs n, v)]) n d x.
Proof. intros H. unfold given. rewrite last_value_snoc, gseqb_refl. exact H. Qed.
Lemma given_other {A} (parse : gostring -> option A) st n n' d x v : gseqb (bs n') (bs n) = false -> given parse st n d x -> given parse (st ++ [(bs n', v)]) n d x.
Proof. intros H G. unfold given. rewrite last_value_snoc, H. exact G. Qed.
Lemma given_unique {A} (parse : gostring -> option A) st n d x y : given parse st n d x -> given parse st n d y -> x = y.
Proof. unfold given. destruct (last_value (bs n) st); congruence. Qed.

Lemma apply_snoc {St} (l : list (flag St * gostring)) f v s : apply_sets (l ++ [(f, v)]) s =
  obind (apply_sets l s) (fun s' => match fl_set f v s' with Some s2 => Ret s2 | None => Err "invalid argument" end).
Proof. revert s. induction l as [|[g w] l IH]; intros s; cbn; [destruct (fl_set f v s); reflexivity|]. destruct (fl_set g w s); cbn; auto. Qed.

Lemma short_arg_no_panic {St} (fs : list (flag St)) s : short_arg fs s <> Panic.
Proof.
  induction s as [|c s IH]; cbn [short_arg]; [discriminate|]. destruct (test_prefix _); [discriminate|]. destruct (find_short fs c) as [f|]; [|discriminate].
  destruct (_ && _); [discriminate|]. destruct (fl_switch f).
  - destruct (short_arg fs s) as [[l p]|e|]; cbn [obind]; [discriminate|discriminate|contradiction IH; reflexivity].
  - destruct (1 <=? length s)%nat; discriminate.
Qed.
Lemma long_arg_no_panic {St} (fs : list (flag St)) s : long_arg fs s <> Panic.
Proof.
  unfold long_arg. destruct (_ || _); [discriminate|]. destruct (split_eq s) as [n [v|]]; destruct (find_long fs n) as [f|]; try discriminate.
  destruct (fl_switch f); discriminate.
Qed.
Lemma parse_args_no_panic {St} (fs : list (flag St)) n : forall args, (length args <= n)%nat -> parse_args fs args <> Panic.
Proof.
  induction n as [|n IH]; intros args Hn; [destruct args; [discriminate|cbn in Hn; lia]|].
  destruct args as [|a rest]; [discriminate|]. cbn [length] in Hn. cbn [parse_args].
  destruct (_ || _); [specialize (IH rest ltac:(lia)); destruct (parse_args fs rest) as [[l p]|e|]; cbn; congruence|].
  destruct (_ && _); [discriminate|].
  match goal with |- obind ?x _ <> _ => assert (Hx : x <> Panic) by (destruct (head_is x2d (tl a)); [apply long_arg_no_panic|apply short_arg_no_panic]); destruct x as [[l [f|]]|e|] end; cbn [obind]; try congruence.
  - destruct rest as [|v rest']; [discriminate|]. cbn [length] in Hn. specialize (IH rest' ltac:(lia)). destruct (parse_args fs rest') as [[l' p]|e|]; cbn; congruence.
  - specialize (IH rest ltac:(lia)). destruct (parse_args fs rest) as [[l' p]|e|]; cbn; congruence.
Qed.
Lemma apply_sets_no_panic {St} (l : list (flag St * gostring)) s : apply_sets l s <> Panic.
Proof. revert s. induction l as [|[f v] l IH]; intros s; cbn; [discriminate|]. destruct (fl_set f v s); [apply IH|discriminate]. Qed.

(** ** A command *)
Section Command.
Context {St : Type} (rs : list (registration St)) (zero : St) (os : list opt).
Variables (pint : gostring -> option Z) (pfloat : gostring -> option f64).
Variable M : list (gostring * gostring) -> St -> Prop.

Definition value_ok (k : kind) (v : gostring) : Prop :=
  match k with Int => pint v <> None | Float => pfloat v <> None | Text => True | Switch => parse_bool v <> None end.
Definition reg_ok (r : registration St) (o : opt) : Prop :=
  to_opt_ok (fst r) o /\ forall v s, fl_set (fst r) v s <> None <-> value_ok (o_kind o) v.

Hypothesis Hregs : Forall2 reg_ok rs os.
Hypothesis Hfree : clash_free (map (fun r => syn (fst r)) rs) = true.
Hypothesis Hname : forallb good_name (map (fun r => fl_name (fst r)) rs) = true.
Hypothesis M0 : M [] (fold_left (fun s r => snd r s) rs zero).
Hypothesis Mstep : Forall (fun r => forall st v s s', M st s -> fl_set (fst r) v s = Some s' -> M (st ++ [(fl_name (fst r), v)]) s') rs.
Hypothesis Muniq : forall st s s', M st s -> M st s' -> s = s'.

Lemma regs_opts : Forall2 to_opt_ok (map fst rs) os.
Proof. clear -Hregs. revert Hregs. generalize os as os'. induction rs as [|r l IH]; intros os' H; inversion H as [|x y l1 l2 H1 H2]; subst; cbn; constructor; [exact (proj1 H1)|apply IH; exact H2]. Qed.
Lemma regs_free : clash_free (map syn (map fst rs)) = true.
Proof. rewrite map_map. exact Hfree. Qed.
Lemma regs_names : forallb (fun f : flag St => good_name (fl_name f)) (map fst rs) = true.
Proof. rewrite <- Hname. clear. induction rs as [|r l IH]; cbn; [reflexivity|]. rewrite IH. reflexivity. Qed.

Lemma parse_cmd_eq args : parse_cmd rs zero args =
  obind (parse_args (map fst rs) args) (fun '(l, pos) => obind (apply_sets l (fold_left (fun s r => snd r s) rs zero)) (fun s' => Ret (s', pos))).
Proof. unfold parse_cmd. rewrite add_flags_ok by exact Hfree. reflexivity. Qed.

Lemma accepts_iff f v s : In f (map fst rs) -> (fl_set f v s <> None <-> accepts os pint pfloat parse_bool (fl_name f) v).
Proof.
  intros HI. apply in_map_iff in HI. destruct HI as (r & <- & Hr). destruct (forall2_l _ rs os r Hregs Hr) as (o & Ho & Hok & Hacc).
  rewrite Hacc. split.
  - intros H. exists o. split; [exact Ho|]. split; [symmetry; exact (proj1 Hok)|exact H].
  - intros (o' & Ho' & Hn & Hv). destruct (forall2_r _ rs os o' Hregs Ho') as (r' & Hr' & Hok' & Hacc').
    assert (E : fst r' = fst r).
    { pose proof (find_long_some (map fst rs) regs_free (fst r) (in_map fst _ _ Hr)) as E1.
      pose proof (find_long_some (map fst rs) regs_free (fst r') (in_map fst _ _ Hr')) as E2.
      rewrite (proj1 Hok'), Hn in E2. rewrite E1 in E2. congruence. }
    apply (Hacc v s). rewrite <- E. apply Hacc'. exact Hv.
Qed.

Lemma apply_spec l s' : Forall (fun p => In (fst p) (map fst rs)) l ->
  (apply_sets l (fold_left (fun s r => snd r s) rs zero) = Ret s' <->
   (forall n v, In (n, v) (named l) -> accepts os pint pfloat parse_bool n v) /\ M (named l) s').
Proof.
  revert s'. induction l as [|[f v] l IH] using rev_ind; intros s' HK.
  - cbn. split; [intros E; injection E as <-; split; [intros n v []|exact M0]|intros [_ HM]; f_equal; exact (Muniq _ _ _ M0 HM)].
  - apply Forall_app in HK. destruct HK as [HK Hf]. inversion Hf as [|x y Hf' _]; subst. cbn [fst] in Hf'. rewrite apply_snoc, named_app. cbn [named map fst snd].
    destruct (apply_sets l _) as [s1|e|] eqn:E1.
    + destruct (proj1 (IH s1 HK) eq_refl) as [HA HM]. cbn [obind].
      assert (HS : Forall (fun f => forall st v s s', M st s -> fl_set f v s = Some s' -> M (st ++ [(fl_name f, v)]) s') (map fst rs)) by (rewrite Forall_map; exact Mstep).
      rewrite Forall_forall in HS. specialize (HS f Hf'). pose proof (accepts_iff f v s1 Hf') as Hacc.
      destruct (fl_set f v s1) as [s2|] eqn:E2.
      * specialize (HS _ v _ _ HM E2). split.
        -- intros E. injection E as <-. split; [|exact HS]. intros n w HI. apply in_app_or in HI. destruct HI as [HI|[E|[]]]; [auto|]. injection E as <- <-. apply Hacc. discriminate.
        -- intros [_ HM']. f_equal. exact (Muniq _ _ _ HS HM').
      * split; [discriminate|]. intros [HA' _]. exfalso. apply (proj2 Hacc); [|reflexivity]. apply HA'. apply in_or_app. right. left. reflexivity.
    + cbn [obind]. split; [discriminate|]. intros [HA HM]. exfalso.
      enough (exists s1, M (named l) s1) as (s1 & H1).
      { assert (Er : Err e = Ret s1); [|discriminate Er]. apply (IH s1 HK). split; [intros n w HI; apply HA; apply in_or_app; left; exact HI|exact H1]. }
      (* every prefix of accepted settings has a meaning *)
      clear -HA HK M0 Mstep Hregs Hfree. assert (HA' : forall n w, In (n, w) (named l) -> accepts os pint pfloat parse_bool n w) by (intros n w HI; apply HA; apply in_or_app; left; exact HI).
      clear HA. induction l as [|[g w] l IHl] using rev_ind; [eexists; exact M0|].
      apply Forall_app in HK. destruct HK as [HK Hg]. inversion Hg as [|x y Hg' _]; subst. cbn [fst] in Hg'. rewrite named_app in *. cbn [named map fst snd] in *.
      destruct IHl as (s1 & H1); [exact HK|intros n u HI; apply HA'; apply in_or_app; left; exact HI|].
      assert (HS : Forall (fun f => forall st v s s', M st s -> fl_set f v s = Some s' -> M (st ++ [(fl_name f, v)]) s') (map fst rs)) by (rewrite Forall_map; exact Mstep).
      rewrite Forall_forall in HS. specialize (HS g Hg'). pose proof (accepts_iff g w s1 Hg') as Hacc.
      destruct (fl_set g w s1) as [s2|] eqn:E2; [exists s2; eapply HS; eauto|]. exfalso. apply (proj2 Hacc); [|reflexivity]. apply HA'. apply in_or_app. right. left. reflexivity.
    + exfalso. exact (apply_sets_no_panic _ _ E1).
Qed.

Theorem command_spec args s pos : parse_cmd rs zero args = Ret (s, pos) <->
  exists settings, command_line os args settings pos /\ (forall n v, In (n, v) settings -> accepts os pint pfloat parse_bool n v) /\ M settings s.
Proof.
  rewrite parse_cmd_eq. split.
  - destruct (parse_args (map fst rs) args) as [[l p]|e|] eqn:E; cbn [obind]; try discriminate.
    destruct (parse_args_sound _ os regs_opts _ _ _ _ (le_n _) E) as [HC HK].
    destruct (apply_sets l _) as [s1|e|] eqn:E1; cbn [obind]; try discriminate. intros Eq. injection Eq as <- <-.
    exists (named l). split; [exact HC|]. apply apply_spec; assumption.
  - intros (st & HC & HA & HM). destruct (parse_args_complete _ os regs_opts regs_free regs_names _ _ _ HC) as (l & E & <- & HK).
    rewrite E. cbn [obind]. rewrite (proj2 (apply_spec l s HK)) by auto. reflexivity.
Qed.

Lemma apply_accepted l : Forall (fun p => In (fst p) (map fst rs)) l ->
  (forall n v, In (n, v) (named l) -> accepts os pint pfloat parse_bool n v) -> forall s, exists s', apply_sets l s = Ret s'.
Proof.
  induction l as [|[f v] l IH]; intros HK HA s; [eexists; reflexivity|]. inversion HK as [|x y Hf HK']; subst. cbn [fst] in Hf. cbn [apply_sets].
  pose proof (accepts_iff f v s Hf) as Hacc. destruct (fl_set f v s) as [s1|]; [apply IH; [exact HK'|intros n w HI; apply HA; right; exact HI]|].
  exfalso. apply (proj2 Hacc); [|reflexivity]. apply HA. left. reflexivity.
Qed.

Theorem command_total args st pos : command_line os args st pos -> (forall n v, In (n, v) st -> accepts os pint pfloat parse_bool n v) ->
  exists s, parse_cmd rs zero args = Ret (s, pos) /\ M st s.
Proof.
  intros HC HA. rewrite parse_cmd_eq. destruct (parse_args_complete _ os regs_opts regs_free regs_names _ _ _ HC) as (l & E & <- & HK).
  rewrite E. cbn [obind]. destruct (apply_accepted l HK HA (fold_left (fun s r => snd r s) rs zero)) as (s & Es). exists s. rewrite Es. split; [reflexivity|].
  exact (proj2 (proj1 (apply_spec l s HK) Es)).
Qed.

Lemma command_no_panic args : parse_cmd rs zero args <> Panic.
Proof.
  rewrite parse_cmd_eq. pose proof (parse_args_no_panic (map fst rs) _ args (le_n _)) as H. destruct (parse_args _ args) as [[l p]|e|]; cbn [obind]; [|discriminate|congruence].
  pose proof (apply_sets_no_panic l (fold_left (fun s r => snd r s) rs zero)) as H1. destruct (apply_sets _ _); cbn [obind]; congruence.
Qed.
End Command.

Lemma accepts_find os pint pfloat n v o : find (fun o => gseqb (bs (o_name o)) n) os = Some o ->
  match o_kind o with Int => pint v <> None | Float => pfloat v <> None | Text => True | Switch => parse_bool v <> None end ->
  accepts os pint pfloat parse_bool n v.
Proof. intros E H. apply find_some in E as [Ho E]. apply gseqb_spec in E. exists o. auto. Qed.
Ltac gs := repeat match goal with |- context [gseqb (bs ?a) (bs ?b)] => let r := eval vm_compute in (gseqb (bs a) (bs b)) in
  replace (gseqb (bs a) (bs b)) with r by (vm_compute; reflexivity) end; cbv iota.
