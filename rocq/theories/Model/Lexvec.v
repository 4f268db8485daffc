(** * Model of pkg/model/lexvec: item.go, and trainOne/update of lexvec.go

    [math.Log] and [math.Pow] are the arguments [flog] and [fpow]. *)
From Verif.Lib Require Import Go F64.
From Verif.Model Require Import Dictionary Encode Cooc ModelUtil Matrix Cells Window.
Local Open Scope Z_scope.

Section Items.
Variables (flog : f64 -> f64) (fpow : f64 -> f64 -> f64).

(** lexvec/options.go:26-31, [RelationType]. *)
Definition rel_ppmi : string := "ppmi".
(** lexvec/options.go:28. *)
Definition rel_pmi : string := "pmi".
(** lexvec/options.go:29. *)
Definition rel_co : string := "co".
(** lexvec/options.go:30. *)
Definition rel_logco : string := "logco".

(** item.go:68 and 77: [math.Log(co) - math.Log(freq1) - math.Log(math.Pow(freq2, smooth)) + logTotalFreq]. *)
Definition pmi_value (smooth : f64) (f1 f2 : nat) (co logTotal : f64) : f64 :=
  fadd (fsub (fsub (flog co) (flog (f_of_Z (Z.of_nat f1))))
             (flog (fpow (f_of_Z (Z.of_nat f2)) smooth))) logTotal.

(** item.go:56-86, [calculateRelation]. *)
Definition calculate_relation (d : dict) (typ : string) (smooth : f64) (l1 l2 : Z) (co logTotal : f64)
  : outcome f64 :=
  if String.eqb typ rel_ppmi then
    if feq co fzero then Ret fzero
    else obind (dict_id_freq d l1) (fun f1 => obind (dict_id_freq d l2) (fun f2 =>
         let ppmi := pmi_value smooth f1 f2 co logTotal in
         Ret (if flt ppmi fzero then fzero else ppmi)))
  else if String.eqb typ rel_pmi then
    if feq co fzero then Ret (f_of_Z 1)
    else obind (dict_id_freq d l1) (fun f1 => obind (dict_id_freq d l2) (fun f2 =>
         Ret (pmi_value smooth f1 f2 co logTotal)))
  else if String.eqb typ rel_co then Ret co
  else if String.eqb typ rel_logco then Ret (flog co)
  else Err "invalid measure type".

(** item.go:31-49: the loop over the map, [em] in iteration order; [res] is the result map. *)
Fixpoint make_items_loop (d : dict) (typ : string) (smooth logTotal : f64) (verbose : bool) (log_batch : Z)
  (em res : list (Z * f64)) : outcome (list (Z * f64)) :=
  match em with
  | [] => Ret res
  | (enc, f) :: em' =>
      let (u1, u2) := decode_bigram enc in
      obind (calculate_relation d typ smooth (wrap_int u1) (wrap_int u2) f logTotal) (fun v =>
      let res' := mset Z.eq_dec enc v res in
      if verbose && (log_batch =? 0) then Panic
      else make_items_loop d typ smooth logTotal verbose log_batch em' res')
  end.

(** item.go:27-54, [makeItems]; [len] is corpus.Len(). *)
Definition lex_make_items (d : dict) (len : Z) (typ : string) (smooth : f64) (verbose : bool) (log_batch : Z)
  (em : list (Z * f64)) : outcome (list (Z * f64)) :=
  make_items_loop d typ smooth (flog (fpow (f_of_Z len) smooth)) verbose log_batch em [].
End Items.

(** lexvec.go:220-232, [update]; [lr] is currentlr. *)
Definition lex_update (dim : Z) (lr : f64) (l1 l2 : Z) (f : f64) (m : matrix) : outcome matrix :=
  obind (cell_dot m l1 l2 (Z.to_nat dim) 0 fzero) (fun s =>
  let diff := fmul (fsub s f) lr in
  pair_loop diff l1 l2 (Z.to_nat dim) 0 m).

(** [items[enc]]: 0 for an absent key. lexvec.go:211, 215. *)
Definition lookup0 (items : list (Z * f64)) (enc : Z) : f64 :=
  match mget Z.eq_dec enc items with Some v => v | None => fzero end.

(** lexvec.go:212-216: the negative samples; [V] is dic.Len(). *)
Fixpoint lex_negatives (dim : Z) (lr : f64) (items : list (Z * f64)) (V w : Z) (n : nat)
  (st : Z * matrix) : outcome (Z * matrix) :=
  match n with
  | O => Ret st
  | S k =>
      let '(next', o) := next_random (fst st) V in
      obind o (fun sample =>
      let enc := encode_bigram (wrap64 w) (wrap64 sample) in
      obind (lex_update dim lr w (sample + V) (lookup0 items enc) (snd st)) (fun m' =>
      lex_negatives dim lr items V w k (next', m')))
  end.

(** lexvec.go:210-216: the loop body for the context position [c]. *)
Definition lex_body (dim : Z) (lr : f64) (items : list (Z * f64)) (V neg : Z) (doc : list Z) (pos c : Z)
  (st : Z * matrix) : outcome (Z * matrix) :=
  match zindex doc pos, zindex doc c with
  | Some w, Some u =>
      let enc := encode_bigram (wrap64 w) (wrap64 u) in
      obind (lex_update dim lr w u (lookup0 items enc) (snd st)) (fun m' =>
      lex_negatives dim lr items V w (Z.to_nat neg) (fst st, m'))
  | _, _ => Panic
  end.

(** lexvec.go:199-218, [trainOne]; the state is [next] and the parameters. *)
Definition lex_train_one (dim : Z) (lr : f64) (items : list (Z * f64)) (V window neg : Z) (doc : list Z) (pos : Z)
  (st : Z * matrix) : outcome (Z * matrix) :=
  let '(next', o) := next_random (fst st) window in
  obind o (fun del =>
  windowed (lex_body dim lr items V neg doc pos) (Z.of_nat (length doc)) pos window del (next', snd st)).
