(** * C01-C03: the dictionary *)
From Verif.Lib Require Import Go.
From Verif.Model Require Import Dictionary.
From Verif.Spec Require Import Words.
From Verif.Proofs Require Dictionary.

(** C01. [calls] is an arbitrary history of Add calls (each with any number of words).
    Ids count the distinct words before the first occurrence; ID and Word are inverse. *)
Theorem C01_dictionary_ids : forall calls : list (list gostring),
  let d := fold_left dict_add calls dict_new in
  let ws := concat calls in
  dict_len d = length (distinct ws) /\
  (forall l1 w l2, ws = l1 ++ w :: l2 -> ~ In w l1 ->
     dict_id d w = (length (distinct l1), true)) /\
  (forall w, ~ In w ws -> dict_id d w = (0, false)) /\
  (forall w i, dict_id d w = (i, true) <-> dict_word d (Z.of_nat i) = Ret (w, true)) /\
  (forall i, i < dict_len d -> exists w, In w ws /\ dict_word d (Z.of_nat i) = Ret (w, true)) /\
  (forall z, (Z.of_nat (dict_len d) <= z)%Z -> dict_word d z = Ret ([], false)) /\
  (forall z, (z < 0)%Z -> dict_word d z = Panic).
Proof. exact Dictionary.dictionary_ids_lemma. Qed.
Print Assumptions C01_dictionary_ids.

Example C01_case :
  let d := fold_left dict_add [[bs "b"; bs "a"]; [bs "b"]; [bs "c"]] dict_new in
  dict_id d (bs "c") = (2, true) /\ dict_word d 1 = Ret (bs "a", true) /\ dict_len d = 3.
Proof. vm_compute. auto. Qed.

(** C02. Frequencies are occurrence counts, and they add up to the number of words added. *)
Theorem C02_dictionary_frequencies : forall calls : list (list gostring),
  let d := fold_left dict_add calls dict_new in
  let ws := concat calls in
  (forall w, dict_word_freq d w = Ret (occurrences w ws)) /\
  (forall i w, dict_word d (Z.of_nat i) = Ret (w, true) ->
     dict_id_freq d (Z.of_nat i) = Ret (occurrences w ws) /\ 1 <= occurrences w ws) /\
  (forall z, (Z.of_nat (dict_len d) <= z)%Z -> dict_id_freq d z = Ret 0) /\
  (forall z, (z < 0)%Z -> dict_id_freq d z = Panic) /\
  (exists fs, Forall2 (fun i f => dict_id_freq d (Z.of_nat i) = Ret f) (seq 0 (dict_len d)) fs
              /\ list_sum fs = length ws).
Proof. exact Dictionary.dictionary_freq_lemma. Qed.
Print Assumptions C02_dictionary_frequencies.

Example C02_case :
  let d := fold_left dict_add [[bs "b"; bs "a"]; [bs "b"]; [bs "c"]] dict_new in
  dict_word_freq d (bs "b") = Ret 2 /\ dict_id_freq d 0 = Ret 2 /\ dict_id_freq d 3 = Ret 0.
Proof. vm_compute. auto. Qed.

(** C03. Later Add calls keep ids and words, and only add to the counts. *)
Theorem C03_dictionary_ids_stable : forall calls more : list (list gostring),
  let d := fold_left dict_add calls dict_new in
  let d' := fold_left dict_add more d in
  (forall w i, dict_id d w = (i, true) -> dict_id d' w = (i, true)) /\
  (forall z w, dict_word d z = Ret (w, true) -> dict_word d' z = Ret (w, true)) /\
  (forall w f, dict_word_freq d w = Ret f ->
     dict_word_freq d' w = Ret (f + occurrences w (concat more))).
Proof. exact Dictionary.dictionary_stable_lemma. Qed.
Print Assumptions C03_dictionary_ids_stable.

Example C03_case :
  let d := fold_left dict_add [[bs "x"; bs "y"]] dict_new in
  let d' := fold_left dict_add [[bs "z"; bs "y"]] d in
  dict_id d (bs "y") = (1, true) /\ dict_id d' (bs "y") = (1, true)
  /\ dict_word_freq d' (bs "y") = Ret 2.
Proof. vm_compute. auto. Qed.
