(** * From a trained model to a search *)
From Coq Require Import Lia.
From Verif.Lib Require Import Go F64.
From Verif.Spec Require Import Words Tokens Lines Rows Saved Decimal.
From Verif.Model Require Import Dictionary Matrix Reader Embedding FmtFloat Vector Search.
From Verif.Proofs Require Dictionary Embedding Vector.
From Verif.Properties Require P19_Load P20_Search.
Local Open Scope Z_scope.

Lemma file_query pf cut ws dim rows verbose lb wv typ :
  reads_decimals pf -> (forall t, concat (cut t) = t) -> verbose = false \/ lb <> 0 -> (1 <= dim)%nat ->
  Forall (fun w => w <> [] /\ ~ has_space w) ws -> all_len dim rows -> length rows = length (distinct ws) ->
  wv typ = Ret (of_rows dim rows) ->
  exists file, model_save good_writer cut (dict_add dict_new ws) wv verbose lb typ [] = (file, Ret tt) /\
    forall ls, lines file ls -> Forall (fun l => Z.of_nat (length l) <= 65535) ls ->
    exists embs, load pf (file_of file) = Ret embs /\ map e_word embs = distinct ws /\ searcher_new embs = Ret embs /\
      forall w k, In w ws -> 1 <= k -> exists res, search_internal embs w k = Ret res.
Proof.
  intros HF Hc Hv Hd HW A L E. unfold model_save. rewrite E.
  rewrite Vector.save_ok by auto. rewrite Vector.bufio_good, Hc. eexists. split; [reflexivity|]. intros ls Hls Hlen.
  assert (HW' : Forall (fun w => ~ has_space w) (distinct ws)).
  { apply Embedding.distinct_words. eapply Forall_impl; [|exact HW]. cbn. tauto. }
  pose proof (Embedding.saved_lines _ HW' rows) as Hl. cbn [app] in Hls. rewrite (Embedding.lines_det _ _ Hls _ Hl) in Hlen.
  assert (HL : Forall2 (fun w v => Z.of_nat (length (saved_line w v)) <= 65536) (distinct ws) rows).
  { apply Embedding.row_texts_len; [exact L|]. eapply Forall_impl; [|exact Hlen]. cbn. intros. lia. }
  destruct (P19_Load.C55_save_load pf cut ws dim rows verbose lb HF Hc Hv Hd HW A L HL) as (embs & H1 & H2 & H3).
  rewrite Vector.save_ok in H1 by auto. rewrite Vector.bufio_good, Hc in H1. cbn [fst] in H1.
  exists embs. split; [exact H1|]. split; [exact H2|].
  assert (HN : searcher_new embs = Ret embs).
  { apply (proj1 (P20_Search.C62_new embs)). assert (D : Forall (fun e => e_dim e = Z.of_nat dim) embs).
    { clear -H3. induction H3 as [|? ? ? ? (H & _) _ IH]; constructor; auto. }
    rewrite Forall_forall in D. intros a b Ha Hb. rewrite (D a Ha), (D b Hb). reflexivity. }
  split; [exact HN|]. intros w k Hw Hk. apply (proj2 (P20_Search.C62_loaded_internal pf _ embs w k H1 HN Hk)).
  rewrite H2. apply Dictionary.In_distinct. exact Hw.
Qed.
