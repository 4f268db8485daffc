(** * Model of the goroutines of one training iteration, and of the iteration loop

    word2vec.go:135-227 ([train], [batchTrain], [trainPerThread], [observe]); the same code is in
    lexvec.go:116-197,234-254 and, without batch mode and without subsampling, in
    glove.go:110-175. One transition is one action of one goroutine, or one channel rendezvous.

    Simplifications: [Acquire] may admit any waiting goroutine (the library admits them in FIFO
    order, so it has fewer schedules); one whole trainOne call on the parameters is one step
    (values and data races of the float updates are not part of this model); panics inside
    trainOne (C35) are not part of this model. *)
From Verif.Lib Require Import Go.

Section Sched.
Context {A : Type}.   (* what one pass of the worker loop handles: a position, or a GloVe item *)

(** [c_g] = opts.Goroutines. [c_pool]: trainOne takes a scratch vector from a channel of [c_g]
    vectors (word2vec only). [c_skip]: the subsampler may skip a word (word2vec, lexvec). word2vec.go:146, 169, model.go:37-46, 90-102. *)
Record cfg := Cfg { c_g : nat; c_pool : bool; c_skip : bool }.

(** A trainPerThread goroutine (word2vec.go:182-205): its slice [w_doc] and where it is. *)
Inductive wstep :=
| WNew                          (* before sem.Acquire returns, :193 *)
| WRun (todo : list A)          (* head of the loop, :197 *)
| WHold (x : A) (todo : list A) (* in trainOne for x with a scratch vector, :199 and model.go:55-58 *)
| WSend (todo : list A)         (* x handled, blocked in [trained <- struct{}{}], :201 *)
| WRel                          (* wg.Done() executed, before sem.Release, :189-190 *)
| WEnd.
(** word2vec.go:182-187. *)
Record worker := Worker { w_doc : list A; w_at : wstep }.

(** Where the main goroutine gets the slices from. [Mem]: slices not yet handed to a goroutine,
    word2vec.go:149-153. [Chan]: batches not yet sent by BatchWords, the state of its end of the
    channel, and the content of the channel, word2vec.go:169-174. What BatchWords sends, and
    whether it closes the channel or returns an error without closing it, is C15 and C16. *)
Inductive ending := WillClose | WillFail | Closed.
(** word2vec.go:149-153, 169-174. *)
Inductive source :=
| Mem (rest : list (list A))
| Chan (unsent : list (list A)) (e : ending) (buf : list (list A)).

(** The main goroutine, word2vec.go:142-157, 162-178. *)
Inductive mainpc :=
| MLoop   (* the spawning loop *)
| MWait   (* wg.Wait(), :155 or :176 *)
| MDone.  (* close(trained) executed, :156 or :177 *)

(** The observe goroutine (word2vec.go:207-227). *)
Inductive obspc :=
| ORecv (cnt : nat)   (* at [range trained], cnt ticks received *)
| OBusy (cnt : nat)   (* in the loop body with this cnt (sets currentlr) *)
| OEnd (cnt : nat).

(** All goroutines and the channels, semaphore and wait group of word2vec.go:143-147, 163-169. *)
Record st := St {
  src : source; main : mainpc; wks : list worker; obs : obspc;
  sem : nat;            (* number of holders *)
  pool : nat;           (* scratch vectors in the channel *)
  wg : nat;             (* wait-group counter *)
  tclosed : bool;       (* trained closed *)
  crashed : bool;       (* a send on the closed channel, or a negative wait-group counter: Go panics *)
  log : list (nat * A)  (* ghost: what was handled (trained or skipped), by which worker, in time order *)
}.

(** Start of an iteration: word2vec.go:143-147 or :163-170. *)
Definition init (c : cfg) (s : source) : st :=
  St s MLoop [] (ORecv 0) 0 (c_g c) 0 false false [].

(** A goroutine goes on to another statement of word2vec.go:182-205. *)
Definition set_w (s : st) (i : nat) (w : wstep) : list worker :=
  match nth_error (wks s) i with
  | Some k => upd (wks s) i (Worker (w_doc k) w)
  | None => wks s
  end.

(** Where a goroutine of word2vec.go:182-205 is. *)
Definition at_w (s : st) (i : nat) (w : wstep) : Prop :=
  exists d, nth_error (wks s) i = Some (Worker d w).

(** One action of one goroutine of word2vec.go:135-227; the lines are with the rules. *)
Inductive step (c : cfg) : st -> st -> Prop :=
(** word2vec.go:149-153: [wg.Add(1)] and [go trainPerThread(doc[s:e], ...)]. *)
| s_spawn_mem s d rest : crashed s = false -> main s = MLoop -> src s = Mem (d :: rest) ->
    step c s (St (Mem rest) MLoop (wks s ++ [Worker d WNew]) (obs s) (sem s) (pool s) (S (wg s)) (tclosed s) false (log s))
(** end of the loop :149 *)
| s_mem_end s : crashed s = false -> main s = MLoop -> src s = Mem [] ->
    step c s (St (Mem []) MWait (wks s) (obs s) (sem s) (pool s) (wg s) (tclosed s) false (log s))
(** BatchWords: [ch <- ids] into the buffer of capacity Goroutines, fs.go:73,82 *)
| s_send s d u e buf : crashed s = false -> src s = Chan (d :: u) e buf -> length buf < c_g c ->
    step c s (St (Chan u e (buf ++ [d])) (main s) (wks s) (obs s) (sem s) (pool s) (wg s) (tclosed s) false (log s))
(** BatchWords: [close(ch)], fs.go:83 *)
| s_close s buf : crashed s = false -> src s = Chan [] WillClose buf ->
    step c s (St (Chan [] Closed buf) (main s) (wks s) (obs s) (sem s) (pool s) (wg s) (tclosed s) false (log s))
(** word2vec.go:171-174: receive a batch from the buffer and start a worker *)
| s_spawn_chan s u e d buf : crashed s = false -> main s = MLoop -> src s = Chan u e (d :: buf) ->
    step c s (St (Chan u e buf) MLoop (wks s ++ [Worker d WNew]) (obs s) (sem s) (pool s) (S (wg s)) (tclosed s) false (log s))
(** the same with an unbuffered channel (Goroutines = 0): sender and receiver meet *)
| s_spawn_meet s u e d : crashed s = false -> main s = MLoop -> src s = Chan (d :: u) e [] -> c_g c = 0 ->
    step c s (St (Chan u e []) MLoop (wks s ++ [Worker d WNew]) (obs s) (sem s) (pool s) (S (wg s)) (tclosed s) false (log s))
(** end of [range in] *)
| s_chan_end s u : crashed s = false -> main s = MLoop -> src s = Chan u Closed [] ->
    step c s (St (Chan u Closed []) MWait (wks s) (obs s) (sem s) (pool s) (wg s) (tclosed s) false (log s))
(** :155-156, [wg.Wait()] returns and [close(trained)] *)
| s_wait s : crashed s = false -> main s = MWait -> wg s = 0 ->
    step c s (St (src s) MDone (wks s) (obs s) (sem s) (pool s) (wg s) true false (log s))
(** :193, [sem.Acquire]: blocks for ever if the semaphore has size 0 *)
| s_acquire s i d : crashed s = false -> nth_error (wks s) i = Some (Worker d WNew) -> sem s < c_g c ->
    step c s (St (src s) (main s) (set_w s i (WRun d)) (obs s) (S (sem s)) (pool s) (wg s) (tclosed s) false (log s))
(** :198, [Trial(id)] is false *)
| s_skip s i x t : crashed s = false -> at_w s i (WRun (x :: t)) -> c_skip c = true ->
    step c s (St (src s) (main s) (set_w s i (WSend t)) (obs s) (sem s) (pool s) (wg s) (tclosed s) false (log s ++ [(i, x)]))
(** :199 with model.go:55 or :111, [<-mod.ch] *)
| s_take s i x t : crashed s = false -> at_w s i (WRun (x :: t)) -> c_pool c = true -> 0 < pool s ->
    step c s (St (src s) (main s) (set_w s i (WHold x t)) (obs s) (sem s) (pred (pool s)) (wg s) (tclosed s) false (log s))
(** trainOne's work and its deferred [mod.ch <- tmp], which blocks if the channel is full *)
| s_give s i x t : crashed s = false -> at_w s i (WHold x t) -> pool s < c_g c ->
    step c s (St (src s) (main s) (set_w s i (WSend t)) (obs s) (sem s) (S (pool s)) (wg s) (tclosed s) false (log s ++ [(i, x)]))
(** trainOne of lexvec and glove: no scratch vector *)
| s_train s i x t : crashed s = false -> at_w s i (WRun (x :: t)) -> c_pool c = false ->
    step c s (St (src s) (main s) (set_w s i (WSend t)) (obs s) (sem s) (pool s) (wg s) (tclosed s) false (log s ++ [(i, x)]))
(** :201 meets :209 *)
| s_tick s i t n : crashed s = false -> at_w s i (WSend t) -> tclosed s = false -> obs s = ORecv n ->
    step c s (St (src s) (main s) (set_w s i (WRun t)) (OBusy (S n)) (sem s) (pool s) (wg s) (tclosed s) false (log s))
(** :201 on the closed channel: panic *)
| s_tick_closed s i t : crashed s = false -> at_w s i (WSend t) -> tclosed s = true ->
    step c s (St (src s) (main s) (wks s) (obs s) (sem s) (pool s) (wg s) (tclosed s) true (log s))
(** :204 and the deferred [wg.Done()] *)
| s_done s i : crashed s = false -> at_w s i (WRun []) -> 0 < wg s ->
    step c s (St (src s) (main s) (set_w s i WRel) (obs s) (sem s) (pool s) (pred (wg s)) (tclosed s) false (log s))
| s_done_negative s i : crashed s = false -> at_w s i (WRun []) -> wg s = 0 ->
    step c s (St (src s) (main s) (wks s) (obs s) (sem s) (pool s) (wg s) (tclosed s) true (log s))
(** the deferred [sem.Release(1)] *)
| s_release s i : crashed s = false -> at_w s i WRel ->
    step c s (St (src s) (main s) (set_w s i WEnd) (obs s) (pred (sem s)) (pool s) (wg s) (tclosed s) false (log s))
(** :210-222, the body of observe's loop *)
| s_obs s n : crashed s = false -> obs s = OBusy n ->
    step c s (St (src s) (main s) (wks s) (ORecv n) (sem s) (pool s) (wg s) (tclosed s) false (log s))
(** :209, the closed channel ends the loop *)
| s_obs_end s n : crashed s = false -> obs s = ORecv n -> tclosed s = true ->
    step c s (St (src s) (main s) (wks s) (OEnd n) (sem s) (pool s) (wg s) (tclosed s) false (log s)).

(** The source of an iteration of [batchTrain], from what BatchWords sends and whether it closes
    the channel (Model/Corpus.v, fs_batch_words). word2vec.go:169-170. *)
Definition batch_source (out : list (list A)) (closes : bool) : source :=
  Chan out (if closes then WillClose else WillFail) [].

(** [steps c n s s']: an execution of [n] steps. word2vec.go:135-227. *)
Inductive steps (c : cfg) : nat -> st -> st -> Prop :=
| steps_0 s : steps c 0 s s
| steps_S n s s' s'' : steps c n s s' -> step c s' s'' -> steps c (S n) s s''.

(** ** The iteration loop, word2vec.go:142-157 (and :162-178)

    Channels, semaphore and wait group are new in every iteration; goroutines of earlier
    iterations that are still finishing are kept in the list. [mk i] is the source of iteration i. *)
Inductive run_step (c : cfg) (iter : nat) (mk : nat -> source) : list st -> list st -> Prop :=
| r_inner l1 s s' l2 : step c s s' -> run_step c iter mk (l1 ++ s :: l2) (l1 ++ s' :: l2)
| r_next l s : main s = MDone -> length (l ++ [s]) < iter ->
    run_step c iter mk (l ++ [s]) (l ++ [s] ++ [init c (mk (length (l ++ [s])))]).
(** word2vec.go:135-180. *)
Inductive run_steps (c : cfg) (iter : nat) (mk : nat -> source) : nat -> list st -> list st -> Prop :=
| run_0 l : run_steps c iter mk 0 l l
| run_S n l l' l'' : run_steps c iter mk n l l' -> run_step c iter mk l' l'' -> run_steps c iter mk (S n) l l''.
End Sched.
Arguments cfg : clear implicits.
Arguments worker : clear implicits.
Arguments wstep : clear implicits.
Arguments source : clear implicits.
Arguments st : clear implicits.
