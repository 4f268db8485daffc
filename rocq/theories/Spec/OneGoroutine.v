(** * Training with one goroutine, as the sequential program one would write *)
From Verif.Lib Require Import Go F64.
From Verif.Spec Require Import Filter Readable.
From Verif.Model Require Import Dictionary Matrix Word2vec Lexvec Options Train Run.
Local Open Scope Z_scope.

(** The text as ids, without the words dropped by MinCount and MaxCount. *)
Definition id_text (lower : gostring -> gostring) (to_lower : bool) (maxc minc : Z) (d : dict) (all : list gostring) : list nat :=
  map (fun w => fst (dict_id d w)) (kept_words maxc minc (used_words lower to_lower all)).

(** LexVec: one trainOne call. *)
Definition lxv_step (o : lex_opts) (items : list (Z * f64)) (V : Z) (doc : list nat) (pos : nat) (v : lvals) : outcome lvals :=
  obind (lex_train_one (lex_Dim o) (lv_lr v) items V (lex_Window o) (lex_NegativeSampleSize o) (map Z.of_nat doc) (Z.of_nat pos)
               (lv_next v, lv_m v))
            (fun '(next', m') => Ret (LVals next' m' (lv_lr v) (lv_k v))).

(** word2vec: one trainOne call, with fresh scratch vectors. *)
Definition w2v_step (sig : f64 -> outcome f64) (md : mod_kind) (window dim : Z) (doc : list nat) (pos : nat) (v : wvals) : outcome wvals :=
  obind ((match md with SkipGram => sg_train_one | Cbow => cb_train_one end) sig window (map Z.of_nat doc) (Z.of_nat pos) (wv_lr v)
                 (WState (wv_next v) (wv_m v) (wv_o v) (repeat fzero (Z.to_nat dim)) (repeat fzero (Z.to_nat dim))))
              (fun s => Ret (WVals (s_next s) (s_param s) (s_opt s) (wv_lr v) (wv_k v))).

