# Formal model of ynqa/wego in Coq 8.16 — design

`properties.jsonl` states the properties (C01..). This file says what is modelled and how, how each
property is proved, and what has to be trusted. `MANIFEST.json` maps properties to theorem names,
`ASSUMPTIONS.md` lists the axioms of every theorem, `seeded/LOG.jsonl` records the wrong programs the
theorems were tested against.

## Layout (`rocq/theories`)

| directory | contents |
|---|---|
| `Lib/` | Go notions shared by the models: outcomes (value / error / panic), maps, slices, bytes, UTF-8 decoding, binary64 floats (Flocq's `BinarySingleNaN`), list lemmas |
| `Model/` | Gallina model of the Go code, one definition per function or loop, each citing file and lines; **no proofs** |
| `Spec/` | small specifications independent of the model (counting, windows, trees, tokens, decimal numbers, interleavings, ...) |
| `Proofs/` | lemmas |
| `Properties/` | the theorems of the claims: statement, `exact` of a lemma, `Print Assumptions`, and an `Example` showing a concrete, non-trivial case that meets the hypotheses |

To read a claim: its line in `properties.jsonl`, the theorem `Cnn_...` in `Properties/`, the
definitions of `Spec/` it names, and the model functions it calls.

## What is modelled

| Go code | model |
|---|---|
| `pkg/corpus/dictionary/dictionary.go` | `Model/Dictionary.v` |
| `pkg/corpus/dictionary/huffman.go`, `node/node.go` | `Model/Huffman.v`; concurrent `GetPath`: `Model/GetPathRace.v` |
| `pkg/corpus/cooccurrence/encode`, `cooccurrence.go` | `Model/Encode.v`, `Model/Cooc.v` |
| `pkg/corpus/cpsutil` (readers; filters) | `Model/Reader.v`; `Model/Corpus.v` |
| `pkg/corpus/memory`, `pkg/corpus/fs` | `Model/Corpus.v` |
| `pkg/model/modelutil` (`NextRandom`, `IndexPerThread`) | `Model/ModelUtil.v` |
| `pkg/model/modelutil/matrix`, `subsample`, `vector` | `Model/Matrix.v`, `Model/Subsample.v`, `Model/Vector.v` (`%f`: `Model/FmtFloat.v`) |
| `pkg/model/word2vec` | `Model/Sigmoid.v`, `Model/Window.v`, `Model/Word2vec.v`, `Model/LearningRate.v` |
| `pkg/model/glove` | `Model/Glove.v`, `Model/Cells.v` |
| `pkg/model/lexvec` | `Model/Lexvec.v`, `Model/Cells.v`, `Model/Window.v`, `Model/LearningRate.v` |
| options of the three models and `New` | `Model/Options.v` |
| `Train` of the three models: set-up; goroutines; goroutines with values; their single memory accesses | `Model/Train.v`; `Model/Sched.v`; `Model/Run.v`; `Model/Race.v`, `Model/RaceHS.v` |
| progress reports (`pkg/util/verbose` and its uses in Load, makeItems, observe, Save) | `Model/Progress.v` |
| `pkg/embedding`, `embutil` | `Model/Embedding.v` (a witness for strconv.ParseFloat: `Model/ParseFloat.v`) |
| `pkg/search`, `searchutil` | `Model/Search.v` |
| `pkg/search/console` | `Model/Console.v` |
| `cmd/model/*`, `cmd/query`, `cmd/query/console` (`execute`) | `Model/Cmd.v` |
| `LoadForCmd` of the three models, `cmd/model/cmdutil`, `cmd/query/cmdutil`, the commands' `New`; pflag's parser (a dependency, written from its documented behaviour, version 1.0.5) | `Model/Flags.v`, `Model/Main.v` |

Not modelled: `pkg/util/clock` (the elapsed times at the end of the progress lines),
printing of tables, `wego.go` (cobra's choice of the command), `pkg/corpus/filter` and `pkg/corpus/options.go` (unused copies of the filters of `pkg/corpus/cpsutil` and of two options), `examples/`, `test/e2e.go`, the contents of CPU profiles.

## Modelling decisions and simplifications

* **Go `int`** is `Z` where a caller can pass any value, and `nat` for indices, lengths and counters that
  the code only increments from 0. 64-bit wrap-around is explicit where a property depends on it (bigram
  encoding, `NextRandom`), and ignored for counters and products bounded by memory size.
* **Panics** (index out of range, division by zero, slice bounds, negative `make`, closed channels, nil
  pointers) are the outcome `Panic`, never a default value. `make` of a size beyond memory is not modelled.
* **float64** is Flocq's `binary_float 53 1024` with round-to-nearest-even operations (signed zeros,
  infinities, one NaN). No fused multiply-add (Go/amd64 does not fuse). `int(x)` of NaN or out-of-range
  values follows amd64.
* **math.Exp, Log, Pow** are not specified to the bit by Go: they are arguments of the model and the
  theorems quantify over them (with a hypothesis such as monotonicity where the theorem says so).
* **rand.Float64** is an arbitrary stream; theorems hold for every one (C74, C78: for values in [0,1)).
* **strings.ToLower** is an arbitrary function.
* **strconv.ParseFloat** is an arbitrary function that `reads_decimals` (`Spec/Decimal.v`: correct
  rounding of plain decimals, the special names, range errors); `Model/ParseFloat.v` shows there is one.
  `fmt`'s `%f` is written from its documentation (exact value, half to even, six digits).
* **Go maps** are association lists with unique keys. Iteration order is an arbitrary permutation.
* **sort.SliceStable** has only one possible result; it is modelled as stable insertion sort.
* **bufio.Scanner** works on the whole byte sequence with its 64 KiB limit; the end of the input is
  reported by a separate empty read. **bufio.Writer** hands the text over in arbitrary pieces; a
  destination's own WriteString is not modelled.
* **Goroutines** (`Model/Sched.v`) are a transition system with explicit steps for channel rendezvous, buffered
  channels, wait group and weighted semaphore; theorems quantify over all executions. `Acquire` may admit
  any waiter (the library is FIFO: fewer schedules). One `trainOne` call is one atomic step in `Model/Run.v`.
* **Data races**: `Model/Race.v` has the same workers as programs in which every read and every write of a shared
  variable is a step of its own; any number of them interleave arbitrarily on a sequentially consistent memory
  with word-sized accesses (Go's memory model promises less for racy programs). Semaphores and channels only
  remove interleavings and are left out. `C82_*_alone` prove that such a program run alone is the atomic one.
  `Model/GetPathRace.v` does the same for `GetPath` and `Model/RaceHS.v` for whole goroutines of word2vec with hierarchical softmax.
* **Console**: go/parser is an argument (the expression of a line), liner a stream of prompt results,
  the output a list of events. **Commands**: a file system maps canonical path names to files and directories;
  what the operating system permits is an oracle.

## Plan per property

| id | model | proof |
|---|---|---|
| C01-C03 | Dictionary | invariant by induction on the added words; spec: first occurrences and occurrence counts |
| C04-C05 | Encode, `Z` with explicit mod 2^64 | arithmetic (`Z.lor` of disjoint ranges is +); explicit collisions |
| C06-C07 | Cooc | induction over the calls; exactness of float increments below 2^53 with Flocq |
| C08 | Utf8, Reader | induction on the byte sequence; spec: maximal pieces between spaces |
| C09 | Reader: loop of ReadWordWithForwardContext | loop invariant, closed form of the emitted pairs |
| C10-C14, C69 | Corpus | induction on the words, C06, C09 |
| C15-C16, C72 | Corpus BatchWords; Sched | loop invariant; blocked-state invariant |
| C17-C20 | Huffman: heap of nodes with parent pointers | refinement of the heap to a forest of trees, then the exchange argument |
| C21-C22 | Huffman GetPath; GetPathRace | induction over call histories; explicit bad schedules |
| C23-C24 | ModelUtil LCG | modular arithmetic; full period by induction on the exponent |
| C25 | ModelUtil IndexPerThread incl. float conversion | sum-of-floors identity |
| C26 | Matrix | list lemmas |
| C27-C28 | Subsample | monotonicity of rounding |
| C29-C30 | Sigmoid | monotonicity of rounding, evaluation at the boundary floats |
| C31-C35, C70-C71 | Window, Word2vec | loop invariants |
| C36-C39 | Sched | inductive invariant, progress, decreasing measure |
| C40-C41, C73 | LearningRate | binary64 rounding bounds; witnesses |
| C42, C74-C75 | Train | case analysis; rounding bounds |
| C43-C46 | Glove, Cells | induction, Flocq for the accumulators |
| C47-C48 | Lexvec, Cells | as above |
| C49-C51 | Vector | list lemmas; arbitrary writers |
| C52-C53 | FmtFloat, ParseFloat | exact rationals, real-number error bounds |
| C54-C56 | Embedding | induction over lines |
| C57-C60, C62 | Search | insertion invariant, order embedding of binary64 into R |
| C61 | Search | Cauchy-Schwarz on reals, rounding-error analysis |
| C63-C65 | Console | case analysis, induction over the prompts |
| C66, C76, C77 | Cmd | case analysis |
| C67 | Options | case analysis, induction over option lists |
| C68 | everything from Train to SearchInternal | composition of C12, C50, C55, C60, C78 |
| C78-C81 | Run: scheduler and values together | invariants over the product transition system; with one goroutine, simulation of a sequential program |
| C82-C85 | Race: programs of single memory accesses | a weakest-precondition predicate with step counts, preserved by every interleaving; lockstep execution and an explicit schedule for the negative results |
| C86 | dropped words: Run (schedules of slices) and Race (interleavings of statements) | rows never written by a program keep their value in every interleaving (hierarchical softmax: Model/RaceHS, including the statements of GetPath); ids handed to goroutines are those of kept words |
| C87-C88 | options changed in some fields: Train, Run, Vector | simulation of Load on corpora that differ in the filters; the progress report is a constant unless its divisor is 0 |
| C89-C90 | the flags of the commands and pflag's parser (Flags) | soundness and completeness of the parser against an inductive syntax; the meaning of an option list as an invariant of setting flags |
| C91 | whole commands (Main): Flags, Cmd, Run, Vector, Embedding, Search | composition of C66, C68, C76, C89 |
| C92 | file-backed runs (Run) with one batch | C15 gives a single batch; the sequential program of C80; the set-ups of both modes compared through the dictionary (C12) and the counts (C11) |
| C93 | the gradient step (Word2vec, Sigmoid) read in the reals | error analysis of the dot product, of the table (mean-value bound on the logistic function) and of the factor; that math.Exp is accurate to 2^-40 on [-7, 7] is a hypothesis of the theorems (`exp_accurate`), and a function meeting it is exhibited |
| C94 | `ada_train_one` and the whole `glv_train` run in `Model/Glove.v`/`Run.v`; float64 rounding via Flocq: t / sqrt(g + t*t) with g >= 1 is in [-1,1] (monotone rounding, sqrt of a rounded square); induction over the items of the interleaving (C95) counts updates per row (`Spec/Touches.v`); the race witness is computed in the statement-level model of C82. |
| C95 | `Spec/Interleave.v` defines interleavings of slices; both inclusions between the scheduler's runs (`Model/Sched.v`) and `ofold` over the interleaved items, by induction over runs and over passes. |
| C96 | composition of C55 (Save/Load), C58 (Search) and C61 (cosine accuracy) with a perturbation bound of the cosine in the reals (Cauchy-Schwarz and triangle inequality on lists of reals, `Proofs/SavedCosine.v`). |
| C97 | `sgd_train_one` and `lex_update` read in the reals: rounding of the factor and of the new rows (vector norms of the rounding errors), then the identity e' = e - d*size + d^2*(u.v); divergence by computation. |
| C98 | Runs of the scheduler (`trains`) turned into sequences of actions (Spec/Traces.v) by recording each step; per-goroutine order, pass barrier and rate lag by an invariant on the reached states. The converse and sharpness by an executable scheduler (Proofs/Follow.v) whose choices are proved to be steps of the model; non-determinism with one goroutine by two computed runs. |
| C99 | `search_vector` of Model/Search.v; C58's theorem for the query made from the vector, the query's word being irrelevant; uniqueness of the k best without ties and removal of one candidate. |
| C100 | The arrays for k and k' are run in lockstep: the shorter is a prefix of the longer at every step (Proofs/SearchMore.v); order independence from the uniqueness of the k best; ties by computation. |
| C101 | Model/Scanner.v: bufio.Scanner itself (buffer 0, 4096, ..., 65536, shifting, ErrTooLong, ScanWords, ScanLines) on a reader that hands out `S (sizes k)` bytes per Read. A generic invariant for split functions that deliver `whole`, for every window, buffer position and `sizes`; instantiated for words and lines and composed with C08/C54 (P38_Scanner). |
| C102 | Model/Life.v: the fields of the model object (corpus, parameters, optimizer or solver, currentlr) as every Train call, also a failing one, leaves them; `history` = any sequence of calls. Each prepare function is shown to be the setup function of Train.v plus its effects on the fields; WordVector and Save read the object in any state (P39_Life). |
| C103 | `Spec/Draws.v`, `Proofs/Draws.v`: the orbit of the generator modulo 2^e is a permutation (from the lemmas of C24); counting of residues; C33 and C48 turn draws into training steps |
| C104 | Texts related by an arbitrary respelling (Spec/Rename.v). Load, filters, sampling table, tree, items and batches commute with respelling (induction over the words; simulation of the forward-context loop), so set-up commutes and the runs are the same runs: equivalence of `*_trained`; Save by induction over the rows (Proofs/Rename.v) |
| C105 | The same commutation with the identity spelling and different ToLower flags |
| C106 | Spec/Lasting.v: no non-finite component becomes finite. Simulation relation on matrices preserved by every cell update, window loop, trainOne and scheduler step (Proofs/Lasting.v); NaN absorption gives the spreading; the sigmoid lookup of NaN (C29) gives the stop; a concrete interleaving in Model/Race.v shows what a race can undo. |
| C107 | Model/RaceHS.v: word2vec with hierarchical softmax, one shared access per step, GetPath's slice headers and arrays included. Concrete interleavings (executable scheduler, Proofs/RaceHSRuns.v) for the crash and the wrong cached path; a simulation between the shared memory and the heap of Model/Huffman.v for a goroutine alone (Spec/RaceHS.v, Proofs/RaceHSSeq.v); a safety predicate on programs relative to a memory invariant, with the accesses that may fail as parameter, and a well-founded order on programs, for all interleavings (Proofs/RaceHSSafe.v). |
| C108 | Subtrees of an optimal tree are optimal, and swapping a node with its parent's sibling cannot help: so a leaf at depth k forces a weight of at least Fibonacci(k+2) (Proofs/HuffDepth.v). Training: a simulation between the two runs, whose optimizers differ in the limit only, given that no path or cached path exceeds it (Proofs/DepthSim.v, DepthTrain.v). |
| C109 | Induction over the tree that the heap represents (C17): the sum over the leaves of a node is s times that of its code-0 child plus 1-s times that of the other; a cut subtree counts once per leaf (Proofs/Likelihood.v). The derivative by splitting the product at the node. |
| C110 | Lower bound: Gibbs' inequality with the Kraft equality, which is C109 with all probabilities 1/2. Upper bounds: C19 against a tree with the code lengths ceil(log2(N/f)) (built from the Kraft inequality, Proofs/Kraft.v) and against a balanced tree (Proofs/Entropy.v). |
| C111 | Search, Embedding | commutativity of float multiplication; the dot product is 0 or not tiny (multiples of 2^-304), relative errors of the two divisions; C58 with k large |
| C112 | Progress | erasure of the output (simulation of the callbacks); count invariant of each pass; the lines said so far as a function of the observer's state, with the invariant of C36-C39 |
| C113 | Spec/Counts.v reads the matrix by words. Window pairs are shown to be a permutation of the pairs at distance 1, 2, ..., Window (Proofs/Counts.v), from which length, reversal, monotonicity and the bounds follow by induction; the sum of the float cells by induction over the calls of Add (exact below 2^53); whole-text counts by induction over the text. |
| C114 | Spec/Descent.v gives the costs over real rows and the derivative by Rocq's `derivable_pt_lim`, without mentioning the solvers. The derivatives are computed (Proofs/Descent.v); then each float operation of the update is bounded (products with the factor of C97, Lipschitz bounds for t/sqrt(Q+t^2)), so that the new component is `near` old - rate*derivative. Descent of the cost follows from C97. |
| C115 | Spec/Converge.v states the room the rate must leave. One update multiplies the error by at most 1-rate up to 10^-6 (C97) and lets the lengths grow by a factor 1+|step|; the steps form a geometric series, so the potential (lengths + 1)·exp(error) cannot grow: an invariant by induction on n. Trainings: C95 turns any schedule into n copies of the one item, C74 bounds the initial values. |
| C116 | As C115 for LexVec, whose step has no biases and so shrinks the error only by 1-rate·(lengths)²/4: Spec/Converge.v's lex_room adds a floor m for the lengths. A step is at most 4/m² times what it takes off the error, so the sizes of all steps sum to at most T; two potentials, (lengths + 1)·exp T from above and m·exp(2T) from below, are kept by induction on n. |
| C117 | Both references of the update point into one row, so the row is subtracted from twice: x(1-2d) up to rounding (a componentwise bound, then Cauchy). The real inequality: with t = rate·|x|² and u = rate·error, |1 - 4t(1-u)| ≤ 1 - 2t whenever 2t + \|u\| ≤ 1/2. Repetitions: the potentials of C116 for one row. |

## Trusted base

* Coq's kernel (8.16.1).
* Axioms: only those of the standard library's classical reals, which Flocq uses:
  `ClassicalDedekindReals.sig_not_dec`, `ClassicalDedekindReals.sig_forall_dec`,
  `FunctionalExtensionality.functional_extensionality_dep`, `Classical_Prop.classic`. `ASSUMPTIONS.md` lists
  them per theorem (generated by `tools/assumptions.py`). The development adds none.
* The reading of the Go code: the model was written by hand from `/repo`; the code was not run.
* The behaviour of the Go runtime and standard library as written down above.

## Testing against wrong programs

Each entry of `seeded/LOG.jsonl` is one edit of a model definition in a scratch copy. There the proofs that
no longer go through are admitted one after another; a claim's theorem counts as failed
(`theorems_failed`) when it depends on an admitted proof. `examples_failed` lists the concrete cases that
became false. A claim that survives an edit that makes its English statement false is too weak and is tightened.
