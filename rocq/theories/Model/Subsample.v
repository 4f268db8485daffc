(** * Model of pkg/model/modelutil/subsample/subsample.go *)
From Verif.Lib Require Import Go F64.
From Verif.Model Require Import Dictionary.

(** The constant [1.] of subsample.go:34. *)
Definition fone : f64 := f_of_Z 1.

(** subsample.go:34-37: the sample value of a word with frequency [freq]. *)
Definition sample_of (threshold : f64) (freq : nat) : f64 :=
  let z := fsub fone (fsqrt (fdiv threshold (f_of_Z (Z.of_nat freq)))) in
  if flt z fzero then fzero else z.

(** subsample.go:33-39: the loop over the ids [i, i+1, ...]. *)
Fixpoint sample_loop (d : dict) (threshold : f64) (n i : nat) : outcome (list f64) :=
  match n with
  | O => Ret []
  | S k => obind (dict_id_freq d (Z.of_nat i)) (fun f =>
           obind (sample_loop d threshold k (S i)) (fun l => Ret (sample_of threshold f :: l)))
  end.

(** subsample.go:28-43, [New]: the slice [samples]. *)
Definition subsample_new (d : dict) (threshold : f64) : outcome (list f64) :=
  sample_loop d threshold (dict_len d) 0.

(** subsample.go:45-52, [Trial]; [draw] is the value of rand.Float64(). *)
Definition trial (samples : list f64) (id : nat) (draw : f64) : outcome bool :=
  match nth_error samples id with
  | None => Panic
  | Some s => Ret (fgt s draw)
  end.
