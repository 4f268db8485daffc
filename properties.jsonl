{"id": "C01", "title": "Dictionary ids are a bijection in order of first appearance", "statement": "After any sequence of Add calls, Word(i) for i in [0,Len()) is the i-th distinct word in order of first appearance, ID(w) returns (i,true) exactly when Word(i)=(w,true), ID of a word never added is (0,false), and Word(i) for i>=Len() is (\"\",false). A negative i panics.", "quantifier": "every sequence of Add calls with every list of words (any byte strings), every queried word and every integer id", "why_tests_cant": "the set of Add histories and words is infinite; a wrong id assignment may need a particular repetition pattern", "anchors": ["pkg/corpus/dictionary/dictionary.go:New", "pkg/corpus/dictionary/dictionary.go:Add", "pkg/corpus/dictionary/dictionary.go:ID", "pkg/corpus/dictionary/dictionary.go:Word", "pkg/corpus/dictionary/dictionary.go:Len"]}
{"id": "C02", "title": "Dictionary frequencies are exact occurrence counts", "statement": "WordFreq(w) is the number of times w was passed to Add (0 if never); IDFreq(i) equals WordFreq(Word(i)) and is at least 1 for i in [0,Len()), and 0 for i>=Len(); Len() is the number of distinct words; the frequencies sum to the number of words added.", "quantifier": "every sequence of Add calls, every word, every id", "why_tests_cant": "counts must be right for every multiset of words", "anchors": ["pkg/corpus/dictionary/dictionary.go:WordFreq", "pkg/corpus/dictionary/dictionary.go:IDFreq", "pkg/corpus/dictionary/dictionary.go:Add"]}
{"id": "C03", "title": "Dictionary ids are stable", "statement": "Once a word has an id, no later Add changes that id or the word stored under it, and its frequency never decreases.", "quantifier": "every pair of successive Add histories", "why_tests_cant": "needs every continuation of every history", "anchors": ["pkg/corpus/dictionary/dictionary.go:Add"]}
{"id": "C04", "title": "Bigram encoding round-trips and identifies unordered pairs", "statement": "For ids below 2^32, DecodeBigram(EncodeBigram(a,b)) = (min(a,b), max(a,b)); EncodeBigram is symmetric; two pairs encode equally iff they are equal as unordered pairs.", "quantifier": "all pairs of ids below 2^32", "why_tests_cant": "2^64 inputs", "anchors": ["pkg/corpus/cooccurrence/encode/encode.go:EncodeBigram", "pkg/corpus/cooccurrence/encode/encode.go:DecodeBigram"]}
{"id": "C05", "title": "Bigram encoding outside 32 bits collides", "statement": "The 32-bit bound of the encoding is sharp: for uint64 arguments DecodeBigram(EncodeBigram(a,b)) = (min,max) exactly when both ids are below 2^32, and there are ids at 2^32 for which two different unordered pairs share one key.", "quantifier": "all pairs of uint64 values", "why_tests_cant": "2^128 inputs", "anchors": ["pkg/corpus/cooccurrence/encode/encode.go"]}
{"id": "C06", "title": "Increment co-occurrence matrix holds exact pair counts", "statement": "After any sequence of successful Add(left,right) with type inc and ids in [0,2^32), the matrix has a key exactly for the unordered pairs that were added, and its float64 value is exactly the number of Adds of that unordered pair as long as that number is at most 2^53.", "quantifier": "every sequence of Add calls", "why_tests_cant": "any sequence length; float accumulation only fails beyond 2^53", "anchors": ["pkg/corpus/cooccurrence/cooccurrence.go:New", "pkg/corpus/cooccurrence/cooccurrence.go:Add", "pkg/corpus/cooccurrence/cooccurrence.go:EncodedMatrix"]}
{"id": "C07", "title": "Proximity co-occurrence: error exactly on equal ids, weight 1/|id difference|", "statement": "With type prox, Add(a,b) returns an error exactly when a=b and then leaves the matrix unchanged; otherwise it adds the float64 value 1/|a-b| of the dictionary ids to the cell of {a,b} and changes no other cell. New accepts exactly the types inc and prox.", "quantifier": "every matrix state and every pair of ids", "why_tests_cant": "every state", "anchors": ["pkg/corpus/cooccurrence/cooccurrence.go:Add", "pkg/corpus/cooccurrence/cooccurrence.go:New"]}
{"id": "C08", "title": "Tokenisation of the corpus", "statement": "ReadWord calls its callback once per word, in order, where the words are the maximal runs of non-space runes (Unicode white space, UTF-8 decoded, invalid bytes counted as non-space); no word is empty or contains white space; rewinding makes a second pass see the same words; the callback's first error stops the pass; a word of 65536 bytes or more makes the pass fail after the words before it were delivered.", "quantifier": "every byte sequence, every callback", "why_tests_cant": "infinite inputs, including invalid UTF-8", "anchors": ["pkg/corpus/cpsutil/cpsutil.go:ReadWord"]}
{"id": "C09", "title": "Windowed pair reader: exact emitted pairs", "statement": "ReadWordWithForwardContext(n) on a document of L words emits, for L>n>=1, exactly the pairs (w_i,w_j) with i<j<=i+n and i<=L-n, in order: the pairs among the last n-1 words are dropped, so the full window is covered exactly when n<=2. For 1<=L<=n it emits pairs with empty partner strings, for L=0 it emits n pairs of empty strings, and for n=0 and L>=1 it panics.", "quantifier": "every document and every window size", "why_tests_cant": "all documents x all windows; the only unit test uses n=2, where nothing is lost", "anchors": ["pkg/corpus/cpsutil/cpsutil.go:ReadWordWithForwardContext"]}
{"id": "C10", "title": "In-memory co-occurrence covers exactly the window", "statement": "Loading the in-memory corpus with type inc and window n gives, for every unordered pair of ids, the number of position pairs i<j<=i+n holding these ids (all tokens, filters ignored).", "quantifier": "every document, every window, ToLower on or off", "why_tests_cant": "all documents", "anchors": ["pkg/corpus/memory/memory.go:Load"]}
{"id": "C11", "title": "File-backed co-occurrence: when it agrees with the in-memory one", "statement": "The file-backed corpus produces the same matrix as the in-memory one when 1<=n<=2, the document has more than n words and ToLower is off; it differs in general for n>=3, for documents of at most n words, and with ToLower (words are looked up without lower-casing, unknown words counting as id 0).", "quantifier": "every document and window", "why_tests_cant": "all documents; the disagreement needs window >= 3 or upper-case text", "anchors": ["pkg/corpus/fs/fs.go:Load", "pkg/corpus/memory/memory.go:Load", "pkg/corpus/cpsutil/cpsutil.go:ReadWordWithForwardContext"]}
{"id": "C12", "title": "Load: corpus length and vocabulary", "statement": "After a successful Load of a fresh corpus, Len() is the number of words of the text and the dictionary is the one obtained by adding the (optionally lower-cased) words in order; this is the same for the in-memory and the file-backed corpus.", "quantifier": "every text, both corpus kinds, every ToLower function", "why_tests_cant": "all texts", "anchors": ["pkg/corpus/fs/fs.go:Load", "pkg/corpus/memory/memory.go:Load"]}
{"id": "C13", "title": "Frequency filters", "statement": "A word id is kept exactly when (MaxCount<=0 or freq<=MaxCount) and (MinCount<0 or freq>=MinCount), where freq is its corpus frequency.", "quantifier": "all MaxCount, MinCount integers, all dictionaries and ids", "why_tests_cant": "all thresholds and counts", "anchors": ["pkg/corpus/cpsutil/cpsutil.go:Filters.Any", "pkg/corpus/cpsutil/cpsutil.go:MaxCount", "pkg/corpus/cpsutil/cpsutil.go:MinCount"]}
{"id": "C14", "title": "IndexedDoc is the filtered id sequence", "statement": "For the in-memory corpus IndexedDoc() is the sequence of ids of the kept words in text order; every id in it is below Dictionary().Len() and has a kept frequency.", "quantifier": "every text and filter setting", "why_tests_cant": "all texts", "anchors": ["pkg/corpus/memory/memory.go:IndexedDoc"]}
{"id": "C15", "title": "BatchWords delivers the filtered text in full batches", "statement": "On a readable text and batchSize>=1 the file-backed corpus sends batches whose concatenation is exactly what the in-memory IndexedDoc returns for the same text and filters; all batches but the last have exactly batchSize ids, the last has fewer (possibly none), and the channel is closed exactly once, after the last batch. With batchSize<=0 it panics on the first kept word (batchSize=0) or at once (negative).", "quantifier": "every text, filter and batch size", "why_tests_cant": "all texts and sizes, in particular exact multiples", "anchors": ["pkg/corpus/fs/fs.go:BatchWords", "pkg/corpus/memory/memory.go:IndexedDoc"]}
{"id": "C16", "title": "BatchWords on a failing read never closes the channel", "statement": "If the second pass over the text fails (read error or over-long word), BatchWords returns the error without closing the channel, so a consumer ranging over it gets the full batches sent so far and then blocks forever.", "quantifier": "every prefix of words read before the error", "why_tests_cant": "needs a fault at every point of the read", "anchors": ["pkg/corpus/fs/fs.go:BatchWords", "pkg/model/word2vec/word2vec.go:batchTrain", "pkg/model/lexvec/lexvec.go:batchTrain"]}
{"id": "C17", "title": "Huffman tree: structure", "statement": "HuffnamTree returns one leaf per id carrying that id's frequency; from every leaf, following parents reaches one common root whose value is the total frequency; every merged node's value is the sum of its two children, whose codes are 0 and 1, and its vector has length dim; leaves have no vector.", "quantifier": "every dictionary", "why_tests_cant": "all frequency tables", "anchors": ["pkg/corpus/dictionary/huffman.go:HuffnamTree", "pkg/corpus/dictionary/node/node.go:Node"]}
{"id": "C18", "title": "Huffman codes are prefix-free", "statement": "The code sequences (root to leaf) of two different word ids are never prefixes of each other; in particular they are distinct.", "quantifier": "every dictionary, every two ids", "why_tests_cant": "all frequency tables", "anchors": ["pkg/corpus/dictionary/huffman.go:HuffnamTree", "pkg/corpus/dictionary/node/node.go:GetPath"]}
{"id": "C19", "title": "Huffman tree is optimal", "statement": "The sum over all words of frequency times path length is minimal among all binary trees with one leaf per word.", "quantifier": "every dictionary and every competing binary tree", "why_tests_cant": "ranges over all trees", "anchors": ["pkg/corpus/dictionary/huffman.go:HuffnamTree"]}
{"id": "C20", "title": "Huffman: frequent words never have longer paths", "statement": "If freq(a) > freq(b) then the root-to-leaf path of a is not longer than that of b.", "quantifier": "every dictionary and every two ids", "why_tests_cant": "all frequency tables", "anchors": ["pkg/corpus/dictionary/huffman.go:HuffnamTree"]}
{"id": "C21", "title": "GetPath returns the root-to-leaf path, cut at depth", "statement": "Called from one goroutine, GetPath(d) on a node of the tree returns the first min(d, length) nodes of the root-to-node path (starting at the root, each next node a child of the previous, ending in the node itself when d>=length), for any sequence of calls with any non-negative depths: the cache is invisible. depth=0 returns no node at all (the CLI help says max-depth=0 tracks the full path), so hierarchical softmax with MaxDepth 0 or 1 updates nothing. A negative depth panics.", "quantifier": "every tree, every sequence of GetPath calls", "why_tests_cant": "all call histories over all trees", "anchors": ["pkg/corpus/dictionary/node/node.go:GetPath", "pkg/model/word2vec/optimizer.go:hierarchicalSoftmax.optim", "pkg/model/word2vec/options.go"]}
{"id": "C22", "title": "GetPath is not safe for concurrent use", "statement": "With two goroutines calling GetPath on the same leaf (as hierarchical softmax with Goroutines>=2 does), there is an interleaving in which a call returns a path that is not the root-to-leaf path, and one in which a call panics with slice bounds out of range.", "quantifier": "all interleavings of two calls at statement granularity", "why_tests_cant": "schedules are not controllable from a unit test", "anchors": ["pkg/corpus/dictionary/node/node.go:GetPath", "pkg/model/word2vec/optimizer.go:hierarchicalSoftmax.optim"]}
{"id": "C23", "title": "NextRandom stays in range", "statement": "NextRandom(v) with v>=1 returns a value in [0,v) from every generator state; v=0 panics (so Window=0 panics in word2vec and lexvec training as soon as one word passes subsampling).", "quantifier": "every 64-bit generator state and every v", "why_tests_cant": "2^64 states", "anchors": ["pkg/model/modelutil/modelutil.go:NextRandom", "pkg/model/word2vec/model.go:trainOne", "pkg/model/lexvec/lexvec.go:trainOne"]}
{"id": "C24", "title": "NextRandom has full period", "statement": "Iterating the generator visits every one of the 2^64 states exactly once before repeating; hence for every v in [1,2^63) each value in [0,v) is eventually returned by NextRandom(v), from every state; for v=2^k the outputs are periodic with period exactly 2^k.", "quantifier": "all generator states", "why_tests_cant": "2^64 steps cannot be run", "anchors": ["pkg/model/modelutil/modelutil.go:NextRandom"]}
{"id": "C25", "title": "IndexPerThread partitions the data evenly", "statement": "For threadSize t>=1 and dataSize d>=0 (d+t<=2^53) the t+1 boundaries start at 0, end at d, never decrease, and every chunk has floor(d/t) or ceil(d/t) elements; hence the chunks concatenate to the data and every slice expression is in bounds.", "quantifier": "all t and d", "why_tests_cant": "all pairs (t,d)", "anchors": ["pkg/model/modelutil/modelutil.go:IndexPerThread"]}
{"id": "C26", "title": "Matrix rows are independent and in bounds", "statement": "matrix.New(r,c,fn) calls fn once per row in order; Slice(i) for 0<=i<r is row i with length c; writing through Slice(i) changes no other row; Slice(i) outside [0,r) panics when c>=1.", "quantifier": "all r, c, row contents and writes", "why_tests_cant": "all shapes and writes", "anchors": ["pkg/model/modelutil/matrix/matrix.go:New", "pkg/model/modelutil/matrix/matrix.go:Slice"]}
{"id": "C27", "title": "Subsampling acceptance: exact thresholds and range", "statement": "For every word of the vocabulary the acceptance threshold is max(0, 1-sqrt(t/freq)) computed in float64; it lies in [0,1] for t>=0; Trial is true iff the random draw is below it; t=0 accepts every draw in [0,1); t>=freq never accepts; NaN, -Inf and negative t with |t|>=2^-1000 never accept (a tinier negative t can underflow to -0 and then accepts like t=0).", "quantifier": "all float64 thresholds, frequencies and draws", "why_tests_cant": "all float64 values", "anchors": ["pkg/model/modelutil/subsample/subsample.go:New", "pkg/model/modelutil/subsample/subsample.go:Trial"]}
{"id": "C28", "title": "Subsampling keeps frequent words more often, not less", "statement": "The acceptance threshold is non-decreasing in the word's frequency: with one common draw, if a word is accepted then every more frequent word is accepted too. (Subsampling in word2vec is meant to do the opposite: 1-sqrt(t/f) is its discard probability.)", "quantifier": "all thresholds t>=0, all pairs of frequencies, all draws", "why_tests_cant": "all pairs of float64 values", "anchors": ["pkg/model/modelutil/subsample/subsample.go:New", "pkg/model/modelutil/subsample/subsample.go:Trial"]}
{"id": "C29", "title": "Sigmoid table lookup: index safety", "statement": "For a float64 x strictly between -6 and 6 the lookup index is within the table except for the single value x = 6-2^-50, the largest float64 below 6, for which it panics with index 1000; NaN is not excluded by the callers' guards and panics.", "quantifier": "every float64 x", "why_tests_cant": "one bad value among 2^62", "anchors": ["pkg/model/word2vec/sigmoid_table.go:sigmoid", "pkg/model/word2vec/sigmoid_table.go:newSigmoidTable", "pkg/model/word2vec/optimizer.go"]}
{"id": "C30", "title": "Sigmoid table lookup: values and monotonicity", "statement": "Every table entry is in [0,1] for any positive finite exp value; the index is monotone in x, and the grid point of the selected entry is within 0.0121 of x.", "quantifier": "every float64 x in (-6,6)", "why_tests_cant": "all float64 values", "anchors": ["pkg/model/word2vec/sigmoid_table.go"]}
{"id": "C31", "title": "Context window positions", "statement": "Training the word at position pos with random shrink del in [0,window) touches exactly the positions c with 1<=|c-pos|<=window-del and 0<=c<len(doc), each once and in increasing order, never pos itself (skip-gram, each pass of CBOW, and LexVec).", "quantifier": "all documents, positions, windows and shrinks", "why_tests_cant": "all combinations", "anchors": ["pkg/model/word2vec/model.go:skipGram.trainOne", "pkg/model/word2vec/model.go:cbow.dowith", "pkg/model/lexvec/lexvec.go:trainOne"]}
{"id": "C32", "title": "CBOW aggregates and updates different windows", "statement": "CBOW draws the shrink twice: the vectors summed are those of one window, the vectors updated are those of a second window drawn after the optimizer ran. Both are valid windows but may differ: with Window=2 they always differ for hierarchical softmax, and for negative sampling exactly when the sample size is even.", "quantifier": "all generator states", "why_tests_cant": "depends on generator state", "anchors": ["pkg/model/word2vec/model.go:cbow.trainOne", "pkg/model/word2vec/model.go:cbow.dowith"]}
{"id": "C33", "title": "Negative sampling: targets and labels", "statement": "optim(id) applies one positive step on row id followed by exactly one negative step for each of the sampleSize draws that differs from id, in draw order, on rows inside the matrix; no row other than id and the draws changes; and the step size g is (label - s)*lr with s=0 for inner<=-6, s=1 for inner>=6 and the table value otherwise.", "quantifier": "all matrices, vectors, ids, generator states, sample sizes", "why_tests_cant": "all states", "anchors": ["pkg/model/word2vec/optimizer.go:negativeSampling.optim"]}
{"id": "C34", "title": "Hierarchical softmax: which nodes are updated", "statement": "optim(id) processes the internal nodes on the path of id from the root, in order, with the code of the next node on the path, and stops at the first node whose inner product is outside (-6,6); no other node's vector changes and the leaf is never touched.", "quantifier": "all trees, vectors and depths", "why_tests_cant": "all states", "anchors": ["pkg/model/word2vec/optimizer.go:hierarchicalSoftmax.optim"]}
{"id": "C35", "title": "Skip-gram and CBOW only change context rows", "statement": "One trainOne call (skip-gram or CBOW, either optimizer, any state reachable by training) on a document of valid ids and Window>=1 panics only in a sigmoid-table lookup of NaN or of the float64 just below 6; otherwise it keeps all sizes, leaves the optimizer well formed and changes only parameter rows of words in its window. Window=0 panics.", "quantifier": "all documents, states", "why_tests_cant": "all states", "anchors": ["pkg/model/word2vec/model.go"]}
{"id": "C36", "title": "Training visits every word exactly once per iteration and terminates (in-memory)", "statement": "With Goroutines g>=1, in every interleaving of one iteration, each position of the filtered document is handled by exactly one worker exactly once, the progress counter receives exactly one tick per word, no goroutine sends on the closed channel, no reachable state is stuck before completion, and every execution is finite.", "quantifier": "all documents, g, and all schedules of main, workers and observer", "why_tests_cant": "the number of schedules is unbounded", "anchors": ["pkg/model/word2vec/word2vec.go:train", "pkg/model/word2vec/word2vec.go:trainPerThread", "pkg/model/word2vec/word2vec.go:observe", "pkg/model/glove/glove.go:train", "pkg/model/lexvec/lexvec.go:train"]}
{"id": "C37", "title": "Training visits every word exactly once per iteration and terminates (batch mode)", "statement": "The same with a concurrent producer, a channel of capacity g and one worker per batch: every id sent by the producer is handled exactly once, all ticks are received, nothing deadlocks, every execution is finite.", "quantifier": "all batch lists, g>=1, all schedules", "why_tests_cant": "unbounded schedules", "anchors": ["pkg/model/word2vec/word2vec.go:batchTrain", "pkg/model/lexvec/lexvec.go:batchTrain", "pkg/corpus/fs/fs.go:BatchWords"]}
{"id": "C38", "title": "At most Goroutines words are trained concurrently and the buffer pool never runs dry", "statement": "In every reachable state at most g workers hold the semaphore; a worker that wants a scratch buffer always finds one, and returning it never blocks.", "quantifier": "all reachable states", "why_tests_cant": "unbounded schedules", "anchors": ["pkg/model/word2vec/word2vec.go:trainPerThread", "pkg/model/word2vec/model.go:newSkipGram", "pkg/model/word2vec/model.go:newCbow"]}
{"id": "C39", "title": "Zero goroutines", "statement": "With Goroutines=0 in-memory training finishes without training anything, and batch training deadlocks as soon as one batch exists.", "quantifier": "all documents and schedules", "why_tests_cant": "a deadlock in all schedules is not testable", "anchors": ["pkg/model/word2vec/word2vec.go:train", "pkg/model/word2vec/word2vec.go:batchTrain"]}
{"id": "C40", "title": "Learning-rate schedule: range", "statement": "With finite Initlr>=0, MinLR>=0 and at most Len() ticks per iteration the rate used by training is always between 0 and max(Initlr,MinLR), and it changes only at multiples of UpdateLRBatch; UpdateLRBatch=0 panics on the first tick.", "quantifier": "all option values, all tick counts", "why_tests_cant": "all float64 values and histories", "anchors": ["pkg/model/word2vec/word2vec.go:observe", "pkg/model/lexvec/lexvec.go:observe"]}
{"id": "C41", "title": "MinLR is not a lower bound of the learning rate", "statement": "The claim that the learning rate never falls below MinLR is false: there are reachable schedules where the rate is below MinLR, even 0; what holds is that a rate below MinLR is replaced by MinLR at the next update.", "quantifier": "all schedules", "why_tests_cant": "needs a particular corpus length / batch ratio", "anchors": ["pkg/model/word2vec/word2vec.go:observe", "pkg/model/lexvec/lexvec.go:observe", "pkg/model/word2vec/options.go:MinLR"]}
{"id": "C42", "title": "Invalid model configuration is reported as an error", "statement": "Train returns an error and trains nothing for an unknown model type or optimizer (word2vec), solver or count type (glove); an unknown relation (lexvec) is an error exactly when the corpus has at least one co-occurring pair.", "quantifier": "all option strings and corpora", "why_tests_cant": "all strings", "anchors": ["pkg/model/word2vec/word2vec.go:Train", "pkg/model/glove/glove.go:Train", "pkg/model/lexvec/item.go:makeItems"]}
{"id": "C43", "title": "GloVe items: one per co-occurring pair, coefficient in [0,1]", "statement": "For every iteration order of the matrix, the training items are exactly the co-occurring pairs, once each, with decoded ids (smaller, larger), log of the count and weight 1 if count>=xmax, else pow(count/xmax, alpha).", "quantifier": "all matrices, all map iteration orders, all log/pow implementations", "why_tests_cant": "map order is random; all matrices", "anchors": ["pkg/model/glove/item.go:makeItems"]}
{"id": "C44", "title": "GloVe updates: rows, bounds and simultaneity", "statement": "Training an item with ids l1,l2 below V touches only rows l1,l2,l1+V,l2+V of the 2V rows, never indexes out of range, and each step computes both new rows from the old values of both rows.", "quantifier": "all parameter states, items", "why_tests_cant": "all states", "anchors": ["pkg/model/glove/glove.go:trainPerThread", "pkg/model/glove/solver.go:stochastic.trainOne", "pkg/model/glove/solver.go:adaGrad.trainOne"]}
{"id": "C45", "title": "AdaGrad accumulators stay at least 1", "statement": "Every accumulator entry starts at 1 and is always >=1 or NaN, never decreases while it is a number, so the update never divides by zero.", "quantifier": "all update histories over all float64 values", "why_tests_cant": "all histories", "anchors": ["pkg/model/glove/solver.go:newAdaGrad", "pkg/model/glove/solver.go:adaGrad.trainOne"]}
{"id": "C46", "title": "GloVe ignores MinCount and MaxCount", "statement": "GloVe's training items, vocabulary and saved words do not depend on MinCount/MaxCount; they include words that the filters would drop.", "quantifier": "all texts and all pairs of filter settings", "why_tests_cant": "all texts", "anchors": ["pkg/model/glove/glove.go:Train", "pkg/corpus/fs/fs.go:Load", "pkg/corpus/memory/memory.go:Load"]}
{"id": "C47", "title": "LexVec relation values", "statement": "makeItems yields one value per co-occurring pair; with ppmi the value is never negative; with co it is the count; the result does not depend on the map iteration order.", "quantifier": "all matrices, dictionaries, log/pow implementations", "why_tests_cant": "all matrices", "anchors": ["pkg/model/lexvec/item.go:makeItems", "pkg/model/lexvec/item.go:calculateRelation"]}
{"id": "C48", "title": "LexVec updates: rows and aliasing", "statement": "An update touches only the two rows given; for different rows it is the simultaneous gradient step; for a word co-occurring with itself the same row is updated twice per component. Positive pairs use the word rows of both words, negatives the context row of the sample; all rows are in range.", "quantifier": "all parameter states", "why_tests_cant": "all states", "anchors": ["pkg/model/lexvec/lexvec.go:update", "pkg/model/lexvec/lexvec.go:trainOne"]}
{"id": "C49", "title": "WordVector shape and meaning", "statement": "WordVector returns Len() x Dim. For word2vec with negative sampling agg is the component-wise sum of word and context vectors and anything else the word vector; with hierarchical softmax every type gives the word vector. For glove and lexvec it is inverted: agg gives the word vector alone and everything else (including single) the sum.", "quantifier": "all models, all type strings", "why_tests_cant": "all parameter states and strings", "anchors": ["pkg/model/word2vec/word2vec.go:WordVector", "pkg/model/glove/glove.go:WordVector", "pkg/model/lexvec/lexvec.go:WordVector"]}
{"id": "C50", "title": "Save writes one line per word in id order", "statement": "Save writes, for each id in order, the word, a space, each component with %f and a space, and a newline, and nothing else; it fails without writing exactly when the number of rows differs from the vocabulary size. Every vocabulary word is written, including words removed from training by MinCount/MaxCount.", "quantifier": "all dictionaries and matrices", "why_tests_cant": "all inputs", "anchors": ["pkg/model/modelutil/vector/vector.go:Save"]}
{"id": "C51", "title": "Save does not report write failures", "statement": "Save returns nil whatever the underlying writer does: there are writers that accept only part of the text for which Save still returns success.", "quantifier": "all writers", "why_tests_cant": "all failure points of the writer", "anchors": ["pkg/model/modelutil/vector/vector.go:Save"]}
{"id": "C52", "title": "Text format: %f is within half a millionth", "statement": "The text written for a finite float64 denotes a decimal with exactly six fractional digits that is the closest such decimal to the value (ties to even); infinities and NaN are written as +Inf, -Inf, NaN; the text contains no white space.", "quantifier": "every float64", "why_tests_cant": "2^64 values", "anchors": ["pkg/model/modelutil/vector/vector.go:Save"]}
{"id": "C53", "title": "Reading back a written number", "statement": "Parsing the text of a float64 never fails and yields the float64 nearest to the six-digit decimal; a second write-read cycle gives back the same text and the same number.", "quantifier": "every float64", "why_tests_cant": "2^64 values", "anchors": ["pkg/model/modelutil/vector/vector.go:Save", "pkg/embedding/embedding.go:parseLine"]}
{"id": "C54", "title": "Load is all-or-nothing and yields valid embeddings", "statement": "Load either fails or returns, in file order, one embedding per line not starting with a space, each with a non-empty white-space-free word, Dim = len(Vector) >= 1, and Norm computed from Vector; any line with fewer than two fields or an unparsable number makes the whole Load fail.", "quantifier": "every byte sequence", "why_tests_cant": "infinite inputs", "anchors": ["pkg/embedding/embedding.go:Load", "pkg/embedding/embedding.go:parse", "pkg/embedding/embedding.go:parseLine", "pkg/embedding/embedding.go:Validate"]}
{"id": "C55", "title": "Save then Load returns the same words and rounded vectors", "statement": "Loading a saved model returns exactly the vocabulary in id order, each with a vector of Dim components, component j being the float64 read from the six-digit text of the saved component; provided Dim>=1, words are non-empty without white space, and each line has at most 65535 bytes.", "quantifier": "all vocabularies and matrices", "why_tests_cant": "all inputs", "anchors": ["pkg/model/modelutil/vector/vector.go:Save", "pkg/embedding/embedding.go:Load"]}
{"id": "C56", "title": "A saved model can be unloadable", "statement": "If a saved line reaches 65536 bytes (large Dim), Load fails although Save succeeded; with Dim=0 Load fails for every non-empty vocabulary.", "quantifier": "all models with such lines", "why_tests_cant": "size boundary", "anchors": ["pkg/model/modelutil/vector/vector.go:Save", "pkg/embedding/embedding.go:parse"]}
{"id": "C57", "title": "Search results are genuine, ranked and sorted", "statement": "Every non-blank row returned by Search is an item that is not ignored, with its cosine similarity to the query, which is positive; row i has rank i+1; similarities never increase; no item is returned twice.", "quantifier": "all item lists without empty words, all queries, k>=1, all ignore lists, all float64 values including NaN and infinities", "why_tests_cant": "all inputs", "anchors": ["pkg/search/search.go:Search"]}
{"id": "C58", "title": "Search returns the k best", "statement": "Every non-ignored item with positive similarity that is not returned has similarity at most that of every returned row, and if it exists then k rows are filled; the multiset of returned similarities is the k largest positive ones.", "quantifier": "all inputs as above", "why_tests_cant": "all inputs", "anchors": ["pkg/search/search.go:Search"]}
{"id": "C59", "title": "Search: number of rows", "statement": "With m non-ignored items of positive similarity, Search returns k rows if m>=k and k-1 rows if m<k, of which k-1-m are blank (empty word, rank 0): the guard against too few items only works when m=k-1. k=0 panics when some similarity is positive and otherwise returns nothing; k<0 panics.", "quantifier": "all items, queries, k", "why_tests_cant": "all inputs", "anchors": ["pkg/search/search.go:Search"]}
{"id": "C60", "title": "SearchInternal", "statement": "SearchInternal(w,k) fails exactly when w is empty or no item has word w; otherwise it searches with the first item named w and never returns a row with word w.", "quantifier": "all item lists, words", "why_tests_cant": "all inputs", "anchors": ["pkg/search/search.go:SearchInternal"]}
{"id": "C61", "title": "Cosine similarity", "statement": "Cosine is 0 when a norm is 0; it panics exactly when both norms are non-zero and the first vector is longer than the second. For n-component vectors of ordinary magnitude the computed value is within (4n+12)*2^-53 of the true cosine, which is between -1 and 1, symmetric and invariant under positive scaling; in float64 it can exceed 1 by rounding.", "quantifier": "all vectors", "why_tests_cant": "all vectors", "anchors": ["pkg/search/searchutil/searchutil.go:Cosine", "pkg/embedding/embutil/embutil.go:Norm"]}
{"id": "C62", "title": "search.New accepts exactly uniform dimensions", "statement": "New fails exactly when two items have different Dim, and never changes the items; a search with a query of the same dimension on loaded embeddings never panics.", "quantifier": "all item lists", "why_tests_cant": "all inputs", "anchors": ["pkg/search/search.go:New", "pkg/embedding/embedding.go:Embeddings.Validate"]}
{"id": "C63", "title": "Console evaluation is history-independent", "statement": "The result of evaluating a line depends only on the line and the loaded embeddings, not on earlier lines.", "quantifier": "all histories of lines", "why_tests_cant": "all histories", "anchors": ["pkg/search/console/console.go:eval"]}
{"id": "C64", "title": "Console arithmetic", "statement": "A line that is one word behaves as SearchInternal. w1 + w2 and w1 - w2 with known words search with the component-wise sum or difference, ignoring both words; another operator between known words is an error. A left operand that is not a known word is an error, so every chain a - b + c is refused. A bad right operand is not reported: an unknown word there gives a table of blank rows whatever the operator, and a nested b + c there (as in a == b + c) silently replaces the whole line. No line makes the console panic.", "quantifier": "all expression trees and embeddings", "why_tests_cant": "all expressions", "anchors": ["pkg/search/console/console.go:eval", "pkg/search/console/console.go:evalBinaryExpr", "pkg/search/console/op.go"]}
{"id": "C65", "title": "Console loop ends only on exit", "statement": "Run returns exactly when a prompt returns the line exit; prompt errors such as end of input are printed and retried for ever.", "quantifier": "all prompt result streams", "why_tests_cant": "non-termination is not testable", "anchors": ["pkg/search/console/console.go:Run"]}
{"id": "C66", "title": "Training commands never overwrite an existing output", "statement": "word2vec/glove/lexvec commands fail without touching anything when the output exists or the input does not; they create the output before training, so a failing training leaves an empty output file, after which the same command is refused. With -prof an existing cpu.prof is truncated even in the refused cases.", "quantifier": "all file systems, all training outcomes", "why_tests_cant": "all fault points", "anchors": ["cmd/model/word2vec/word2vec.go:execute"]}
{"id": "C67", "title": "Options: defaults, independence, last one wins", "statement": "New(opts...) starts from the defaults and each functional option changes exactly its own field; for repeated options the last one wins; options on different fields commute.", "quantifier": "all option lists", "why_tests_cant": "all lists", "anchors": ["pkg/model/word2vec/options.go", "pkg/model/glove/options.go", "pkg/model/lexvec/options.go", "pkg/model/word2vec/word2vec.go:New"]}
{"id": "C68", "title": "Trained words can be queried", "statement": "For any text on which Train succeeds with Dim>=1 (lines within the scanner limit), loading the saved file and building a searcher succeeds and SearchInternal succeeds for every word of the text.", "quantifier": "all texts, models, parameters", "why_tests_cant": "end-to-end over all inputs", "anchors": ["pkg/model/word2vec/word2vec.go", "pkg/model/modelutil/vector/vector.go", "pkg/embedding/embedding.go", "pkg/search/search.go"]}
{"id": "C69", "title": "Proximity loading rejects texts with nearby repetitions", "statement": "Load of the in-memory corpus with count type prox succeeds exactly when no two equal (lower-cased) words are at most window positions apart; otherwise it returns an error.", "quantifier": "every readable text, every window, ToLower on or off", "why_tests_cant": "all texts; a text without a nearby repetition loads fine", "anchors": ["pkg/corpus/memory/memory.go:Load", "pkg/corpus/cooccurrence/cooccurrence.go:Add"]}
{"id": "C70", "title": "Scratch buffers carry no information between training steps", "statement": "The parameters, optimizer and generator state after a trainOne call do not depend on the contents of the scratch vectors taken from the pool, so it does not matter which worker used them before.", "quantifier": "all models, optimizers, documents, positions, learning rates and contents of the scratch vectors", "why_tests_cant": "the pool is shared by goroutines in any order; a test sees one order", "anchors": ["pkg/model/word2vec/model.go:skipGram.trainOne", "pkg/model/word2vec/model.go:cbow.trainOne"]}
{"id": "C71", "title": "MaxDepth 0 or 1 disables hierarchical-softmax training", "statement": "With MaxDepth 0 or 1 a hierarchical-softmax step changes no node vector and no accumulated gradient, although the command line help says 0 means the whole path.", "quantifier": "all vocabularies, words, context vectors and learning rates", "why_tests_cant": "holds for every tree and every word", "anchors": ["pkg/model/word2vec/optimizer.go:hierarchicalSoftmax.optim", "pkg/corpus/dictionary/node/node.go:GetPath"]}
{"id": "C72", "title": "A read error during batch training hangs the training", "statement": "If the second pass over the input fails (read error, or a token beyond the scanner limit), the producer returns without closing the channel and its error is dropped: in no execution does batch training return; it hangs instead of reporting the error.", "quantifier": "all corpora, failure points, numbers of goroutines and schedules", "why_tests_cant": "needs all schedules and all failure points; a test would time out", "anchors": ["pkg/model/word2vec/word2vec.go:batchTrain", "pkg/model/lexvec/lexvec.go:batchTrain", "pkg/corpus/fs/fs.go:BatchWords"]}
{"id": "C73", "title": "Learning-rate schedule restarts in every iteration", "statement": "At an update a rate of at least MinLR becomes Initlr*(1-cnt/Len) where cnt counts the words of the current iteration only; within an iteration these values never increase, and at the beginning of the next iteration the rate goes up again.", "quantifier": "all options with finite rates, all counters, all histories of ticks", "why_tests_cant": "needs a claim about every counter and every rounding of the float64 formula; a test sees one text length", "anchors": ["pkg/model/word2vec/word2vec.go:observe", "pkg/model/lexvec/lexvec.go:observe"]}
{"id": "C74", "title": "Initial parameters are small", "statement": "For random draws in [0,1), every component that Train starts from is within half of 1/Dim of 0 for word2vec (both matrices) and lexvec, and between 0 and 1/Dim for glove including the biases; with Dim=0 every glove bias starts as an infinity or NaN.", "quantifier": "all texts, options and draws", "why_tests_cant": "depends on every draw and on float rounding", "anchors": ["pkg/model/word2vec/word2vec.go:Train", "pkg/model/word2vec/optimizer.go:newNegativeSampling", "pkg/model/glove/glove.go:Train", "pkg/model/lexvec/lexvec.go:Train"]}
{"id": "C75", "title": "GloVe crashes on an empty text in file-backed mode", "statement": "With the default file-backed corpus, Train of glove on a text without words builds one item for the ids (0,0) of an empty vocabulary, and training it indexes out of range; in memory the same text gives no items.", "quantifier": "all word-free texts and options", "why_tests_cant": "no test reads an empty text through the file-backed corpus; the panic is in a goroutine", "anchors": ["pkg/corpus/cpsutil/cpsutil.go:ReadWordWithForwardContext", "pkg/model/glove/glove.go:Train", "pkg/model/glove/solver.go:trainOne"]}
{"id": "C76", "title": "The query command", "statement": "wego query prints rows exactly when there is exactly one argument, the file can be opened and loaded, all its vectors have one dimension and the word is in it; the rows are those of SearchInternal. With rank >= 1 it never panics and succeeds for every word of the file.", "quantifier": "all file systems, operating-system answers, arguments, ranks and files", "why_tests_cant": "needs every possible file content and every argument list", "anchors": ["cmd/query/query.go: execute", "pkg/search/search.go: SearchInternal"]}
{"id": "C77", "title": "The console command", "statement": "wego console starts exactly when the file can be opened and loaded, holds at least one vector and all vectors have one dimension; after that no sequence of input lines, of any length, makes it crash (rank >= 1).", "quantifier": "all file systems, files, parsers and infinite input streams", "why_tests_cant": "a test runs one input sequence; the claim is about all of them", "anchors": ["cmd/query/console/console.go: execute", "pkg/search/console/console.go: Run, eval"]}
{"id": "C78", "title": "Training never fails for usable options, in any schedule", "statement": "With a known model/optimizer/solver/relation type, Dim >= 0, Window >= 1, at least one goroutine, UpdateLRBatch not 0 and a readable text, the set-up of Train succeeds (GloVe: with count type inc), no interleaving of its goroutines makes one of them panic, deadlock or leave Train waiting for ever, and every run is over after a number of steps linear in the number of words (word2vec: the only possible failure is the sigmoid lookup of NaN or of the float64 just below 6). The default options are usable for every text.", "quantifier": "every usable option set, text, random stream, map order and schedule of the goroutines", "why_tests_cant": "tests see a handful of interleavings and texts", "anchors": ["pkg/model/word2vec/word2vec.go:Train", "pkg/model/word2vec/word2vec.go:train", "pkg/model/word2vec/word2vec.go:batchTrain", "pkg/model/glove/glove.go:train", "pkg/model/lexvec/lexvec.go:train", "pkg/model/lexvec/lexvec.go:batchTrain"]}
{"id": "C79", "title": "GloVe with one goroutine is deterministic", "statement": "With Goroutines = 1 every run of GloVe training, whatever the scheduler does, gives the same parameters: those of Iter sequential passes of the update over the co-occurrence items in their order.", "quantifier": "all texts, options with one goroutine, and schedules", "why_tests_cant": "a test sees few of the interleavings of worker, observer and main goroutine", "anchors": ["pkg/model/glove/glove.go:train", "pkg/model/glove/glove.go:trainPerThread", "pkg/model/glove/glove.go:observe"]}
{"id": "C80", "title": "LexVec and word2vec in memory with one goroutine are deterministic when the rate is not updated", "statement": "In memory with Goroutines = 1 and UpdateLRBatch larger than the number of words, every run, whatever the scheduler does, gives the same parameters: those of Iter passes of the update over the kept words from left to right, with the subsampling trials drawn in that order; word2vec panics in every schedule or in none.", "quantifier": "all texts, such options, random streams and schedules", "why_tests_cant": "a test sees few interleavings", "anchors": ["pkg/model/lexvec/lexvec.go:train", "pkg/model/lexvec/lexvec.go:trainPerThread", "pkg/model/word2vec/word2vec.go:train", "pkg/model/word2vec/word2vec.go:trainPerThread"]}
{"id": "C81", "title": "The learning rate stays in range throughout every concurrent run", "statement": "For finite Initlr >= 0 and MinLR >= 0, at every moment of every run of word2vec and LexVec, in every schedule, the current learning rate is finite and between 0 and max(Initlr, MinLR).", "quantifier": "all usable options, texts, schedules and moments", "why_tests_cant": "concerns every reachable state of a concurrent program", "anchors": ["pkg/model/word2vec/word2vec.go:observe", "pkg/model/lexvec/lexvec.go:observe"]}
{"id": "C82", "title": "Data races never crash training nor corrupt its memory", "statement": "Take the goroutines of an iteration statement by statement, every read and every write of a parameter, an accumulator, a context vector, the generator's variable and the learning rate being a step of its own, interleaved in any way, with the learning rate written by the observer at any time. For usable options and texts, in every iteration of GloVe, LexVec and word2vec with negative sampling, no goroutine ever fails (in word2vec: except at a sigmoid table lookup of NaN or of the float64 just below 6), every access is inside its matrix, the matrices keep their shapes, and an iteration is over after a number of steps that is linear in the items or words. A goroutine running alone computes what the sequential description of trainOne says.", "quantifier": "all usable options and texts, all interleavings of single memory accesses, all iterations, all values of the random generators", "why_tests_cant": "The code shares its matrices without any synchronisation; the number of interleavings of single accesses is beyond any test, and a race detector only reports that races exist, not what they can do.", "anchors": ["pkg/model/glove/solver.go:trainOne", "pkg/model/glove/glove.go:trainPerThread", "pkg/model/lexvec/lexvec.go:trainOne", "pkg/model/lexvec/lexvec.go:update", "pkg/model/word2vec/model.go:trainOne", "pkg/model/word2vec/optimizer.go:optim", "pkg/model/modelutil/modelutil.go:NextRandom"]}
{"id": "C83", "title": "AdaGrad accumulators stay at least 1 even under data races", "statement": "With the AdaGrad solver, at every moment of every iteration, whatever the interleaving of single reads and writes of the goroutines (so also when updates are lost), every accumulator is NaN or at least 1; so no step is ever divided by 0 or multiplied up.", "quantifier": "all usable options and texts, all interleavings of single memory accesses, all moments", "why_tests_cant": "A lost or torn update could in principle make an accumulator smaller than its start value; tests cannot enumerate the interleavings.", "anchors": ["pkg/model/glove/solver.go:adaGrad.trainOne", "pkg/model/glove/solver.go:newAdaGrad"]}
{"id": "C84", "title": "NextRandom used by several goroutines at once", "statement": "Goroutines may call NextRandom concurrently: in every interleaving of its reads and its write of the package variable, no call fails and every result lies in [0, value). But they do not get different numbers: any number of goroutines making the same calls can all get exactly the numbers one of them would get alone, while the generator advances as if only one had called.", "quantifier": "all numbers of goroutines, all sequences of bounds in [1, 2^63), all interleavings, all generator states", "why_tests_cant": "Depends on the interleaving of single accesses to an unsynchronised package variable.", "anchors": ["pkg/model/modelutil/modelutil.go:NextRandom"]}
{"id": "C85", "title": "Parallel training is not equivalent to any sequential order", "statement": "Because trainOne is not atomic, updates can be lost: any number of goroutines with the same work can leave the parameters that one of them alone would leave (so LexVec on a text made of g equal slices can end an iteration with the model of a single slice), and there are two GloVe items whose concurrent training can end in parameters that neither order of the two gives.", "quantifier": "all numbers of goroutines, all programs of workers, all memories; existence of an interleaving", "why_tests_cant": "The bad interleavings occur rarely and unpredictably, so a test that does not see them says nothing.", "anchors": ["pkg/model/glove/solver.go:trainOne", "pkg/model/lexvec/lexvec.go:trainPerThread", "pkg/model/word2vec/word2vec.go:trainPerThread"]}
{"id": "C86", "title": "Words that are never trained keep their initial vectors", "statement": "MinCount and MaxCount remove words from the training text but not from the dictionary: such a word is still saved, and after Train its vector is exactly the one it was initialised with (word2vec, any optimizer; LexVec: its own row), at every moment of every iteration, whatever the goroutines' interleaving. For GloVe the same holds for words no pair of which was counted.", "quantifier": "all texts, options, dropped words, schedules and statement interleavings", "why_tests_cant": "Needs absence of writes on every execution, including racy ones; a run can only show one.", "anchors": ["pkg/model/word2vec/word2vec.go:Train", "pkg/model/lexvec/lexvec.go:Train", "pkg/model/glove/glove.go:Train", "pkg/corpus/corpus.go"]}
{"id": "C87", "title": "Options a model ignores", "statement": "GloVe accepts MaxCount, MinCount, SubsampleThreshold and BatchSize but they have no effect: Train fails or succeeds and gives the same results whatever their values. word2vec ignores BatchSize in in-memory mode, MaxDepth with negative sampling and NegativeSampleSize with hierarchical softmax; LexVec ignores BatchSize in in-memory mode unless it reports progress.", "quantifier": "all texts, all values of all options, all schedules, all random streams", "why_tests_cant": "Non-interference: relates all pairs of runs with different option values.", "anchors": ["pkg/model/glove/glove.go:Train", "pkg/model/glove/options.go:Options", "pkg/model/word2vec/word2vec.go:Train", "pkg/model/lexvec/lexvec.go:Train"]}
{"id": "C88", "title": "Reporting progress does not change results", "statement": "For every model, Train, WordVector and Save give the same results (including failures) whatever Verbose and LogBatch are, provided LogBatch is not 0 when Verbose is set (and, for LexVec, BatchSize is not 0 either, because its Load reports per BatchSize).", "quantifier": "all texts, all options, all schedules, all random streams", "why_tests_cant": "Non-interference: relates all pairs of runs; a test compares two.", "anchors": ["pkg/util/verbose/verbose.go:Do", "pkg/model/word2vec/word2vec.go:observe", "pkg/model/glove/glove.go:observe", "pkg/model/lexvec/lexvec.go:observe", "pkg/model/modelutil/vector/vector.go:Save"]}
{"id": "C89", "title": "What the command line means", "statement": "wego word2vec|glove|lexvec|query|console args: the command runs exactly when the arguments follow the syntax of the flags (--name=v, --name v, -nv, -n v, -n=v, switches, --) and every value can be read as its kind; then every option has the value given last or its documented default, the other words are left over, and parsing never panics. Without arguments the training commands use exactly DefaultOptions.", "quantifier": "every list of arguments, every value reader", "why_tests_cant": "the arguments are arbitrary lists of arbitrary strings; every option can occur in several forms, repeatedly, in any order, bundled or followed by values that look like flags", "anchors": ["pkg/model/word2vec/options.go:LoadForCmd", "pkg/model/glove/options.go:LoadForCmd", "pkg/model/lexvec/options.go:LoadForCmd", "cmd/model/cmdutil/cmdutil.go", "cmd/query/cmdutil/cmdutil.go", "cmd/model/word2vec/word2vec.go:New", "cmd/query/query.go:New", "cmd/query/console/console.go:New"]}
{"id": "C90", "title": "Which configurations the API and the command line can reach", "statement": "Every word2vec and LexVec configuration can be produced by the functional options of New; for GloVe exactly those with CountType \"inc\" and LogBatch 100000, so that counting by proximity is out of reach of New. The command line reaches every configuration of all three models whose numbers can be written as text.", "quantifier": "every configuration, every list of functional options", "why_tests_cant": "it is a statement about all lists of options: no test can show that no combination reaches a configuration", "anchors": ["pkg/model/glove/options.go", "pkg/model/glove/glove.go:New", "pkg/model/word2vec/options.go", "pkg/model/lexvec/options.go"]}
{"id": "C91", "title": "Whole commands: from the command line to the answers", "statement": "A training command whose arguments are refused, or that is asked for help, changes no file. Two command lines in which every option has the same last value do the same thing, whatever their order, form, repetitions and extra words. If a training command succeeds then wego query with that output, a positive rank and any word of the training text prints rows.", "quantifier": "every pair of argument lists, every file system, every schedule of the training, every word of the text", "why_tests_cant": "it composes argument parsing, file handling, concurrent training, saving, loading and searching; each has unboundedly many inputs or schedules", "anchors": ["cmd/model/word2vec/word2vec.go:execute", "cmd/model/glove/glove.go:execute", "cmd/model/lexvec/lexvec.go:execute", "cmd/query/query.go:execute"]}
{"id": "C92", "title": "File-backed training of a text shorter than BatchSize does not depend on Goroutines", "statement": "Without the in-memory option, a text with fewer words than BatchSize and UpdateLRBatch is trained by a single goroutine: for every value of Goroutines >= 1 and every schedule, Train gives the parameters of Iter passes over the kept words from left to right. word2vec gives exactly the result of in-memory training with one goroutine (or panics exactly when that does); so does LexVec when the window is at most 2, the text is longer than the window and ToLower is off.", "quantifier": "all texts, such options, random streams, numbers of goroutines and schedules", "why_tests_cant": "a test sees few interleavings and few texts", "anchors": ["pkg/model/word2vec/word2vec.go:batchTrain", "pkg/model/lexvec/lexvec.go:batchTrain", "pkg/corpus/fs/fs.go:BatchWords"]}
{"id": "C93", "title": "word2vec steps follow the gradient of the logistic likelihood", "statement": "The sigmoid table is within 0.0031 of the logistic function on (-6, 6), and 0 and 1 are as close outside. One training step with a true neighbour (label 1) or a noise word (label 0) moves the two vectors along each other by the learning rate times the derivative of the log-likelihood in the score, label - logistic(score), up to 0.0032 times the rate; the step is never of the wrong sign and its factor never exceeds the rate, so each component of a true neighbour is pulled towards, and of a noise word pushed away from, the context vector. The same holds for each inner node of hierarchical softmax with label 1 - code, except that nodes whose score is outside about (-6, 6) are skipped.", "quantifier": "all finite learning rates >= 0, all vectors of at most 2^20 ordinary components whose lengths have a product of at most a million, all labels, every math.Exp with relative error at most 2^-40", "why_tests_cant": "the claim is an error bound over a continuum of float64 inputs; a test evaluates it at a few points", "anchors": ["pkg/model/word2vec/optimizer.go:optim", "pkg/model/word2vec/sigmoid_table.go:sigmoid", "pkg/model/word2vec/sigmoid_table.go:newSigmoidTable"]}
{"id": "C94", "title": "AdaGrad moves a vector component by at most one per update", "statement": "With the AdaGrad solver of GloVe, each update moves each component of the two vectors by a step between -1 and 1 having the sign of that component's gradient, or makes it NaN. So after a whole Train with any number of goroutines, updates not overlapping, every component of a vector is NaN or of magnitude at most 1 plus the number of updates of its row, and never infinite, whatever the learning rate, the counts, Alpha and Xmax. When goroutines' updates overlap statement by statement the bound fails.", "quantifier": "all texts, options with the adagrad solver, initial random values, map iteration orders, interleavings of items by goroutines, and all rows, errors and accumulators of one update", "why_tests_cant": "Bounds float64 rounding over unboundedly many updates, learning rates and schedules; a test sees one run with ordinary magnitudes.", "anchors": ["pkg/model/glove/solver.go:adaGrad.trainOne", "pkg/model/glove/glove.go:train", "pkg/model/glove/glove.go:trainPerThread"]}
{"id": "C95", "title": "GloVe training with several goroutines is an interleaving of their slices", "statement": "With each item's update taken as one step, the models GloVe's Train can produce with any number of goroutines are exactly those obtained by training items one after the other in Iter passes, each pass being an interleaving of the goroutines' slices (each slice from left to right), so every pass handles every item exactly once and no pass starts before the previous one ended.", "quantifier": "all texts, options, initial values, map iteration orders and schedules of the goroutines", "why_tests_cant": "The set of possible outcomes over all schedules, with both inclusions; a test observes one schedule at a time.", "anchors": ["pkg/model/glove/glove.go:train", "pkg/model/glove/glove.go:trainPerThread", "pkg/model/glove/solver.go:adaGrad.trainOne"]}
{"id": "C96", "title": "Searching a saved model gives the true cosines up to rounding", "statement": "For a model whose vectors have finite components of ordinary size and are longer than sqrt(dim) millionths: after Save and Load, every similarity reported by SearchInternal equals the true cosine of the two original vectors up to 2*sqrt(dim)/10^6*(1/|u|+1/|v|) + (4*dim+12)/2^53; rows come in the order of the true cosines up to these errors; and a word missing from the answer has a cosine at most that error above 0, or not larger than that of any returned word up to the errors.", "quantifier": "all vocabularies, dimensions up to 2^20, vectors, words queried, numbers of neighbours, and decimal parsers that are correct", "why_tests_cant": "Error analysis of decimal rounding followed by float64 arithmetic over all vectors; tests compare a few similarities.", "anchors": ["pkg/model/modelutil/vector/vector.go:Save", "pkg/embedding/embedding.go:Load", "pkg/search/search.go:SearchInternal", "pkg/search/searchutil/searchutil.go:Cosine"]}
{"id": "C97", "title": "A training step of GloVe (sgd) or LexVec brings the pair closer to its target value", "statement": "One stochastic GloVe update of a pair, and one LexVec update of two different rows, are gradient steps on the squared error of the pair (vector product, plus biases for GloVe, minus the target): if rate*(|u|^2+|v|^2(+2)+|error|) <= 1/2 the error shrinks by the factor 1 - rate*(|u|^2+|v|^2(+2))/2, up to 10^-6 from rounding, for vectors of length at most 30. Without the condition updates can diverge: with the default rate two vectors of length 10 become NaN after 20 updates.", "quantifier": "all vectors of at most 2^20 components with length at most 30, biases and targets of magnitude at most 30, learning rates and weights satisfying the condition", "why_tests_cant": "A quantitative statement about float64 arithmetic over all vectors; a unit test checks single numeric updates.", "anchors": ["pkg/model/glove/solver.go:stochastic.trainOne", "pkg/model/lexvec/lexvec.go:update"]}
{"id": "C98", "title": "Training runs of word2vec and LexVec are interleavings of words, and the learning rate lags by at most Goroutines+1 words", "statement": "Every finished Train of word2vec or LexVec is a sequence of random decisions, trained words and learning-rate updates in which each goroutine handles its slice from left to right, iterations do not overlap, and rate updates come in order, never early and never late by more than Goroutines+1 words (only the very last of an iteration can be missing). The bound is sharp. Conversely, with an in-memory document every order in which the goroutines take turns is a possible training. Even with one goroutine and the same random numbers two runs may end with different vectors.", "quantifier": "all texts, options, random numbers, schedules and numbers of goroutines and iterations; word training taken as one step", "why_tests_cant": "The set of all possible schedules cannot be enumerated by running the program; a test sees one schedule per run.", "anchors": ["pkg/model/word2vec/word2vec.go:Train,trainPerThread,observe", "pkg/model/lexvec/lexvec.go:Train,trainPerThread,observe"]}
{"id": "C99", "title": "SearchVector", "statement": "SearchVector(v,k) returns the at most k items most similar to v, best first and only those with positive cosine; unlike SearchInternal it leaves out no word, so for the vector of a loaded word it returns that word too: SearchInternal(w,k) gives the rows of SearchVector(vector of w, k+1) without w (when there are no ties). A query longer than an item panics (unless a norm is 0), a shorter one is compared with the first components only; an empty or zero query gives k-1 blank rows.", "quantifier": "all item lists, query vectors (including NaN, infinities and wrong dimensions) and k", "why_tests_cant": "all vectors and item lists", "anchors": ["pkg/search/search.go:SearchVector", "pkg/search/search.go:SearchInternal"]}
{"id": "C100", "title": "The nearest neighbours do not depend on k or on the order of the file", "statement": "Asking for more neighbours never changes the rows returned for fewer: the filled rows for k are the first k filled rows for any larger k'. Without ties the answer is the same for every order of the items; with ties it is not, and an item that comes earlier in the file can be displaced by an equally similar later one.", "quantifier": "all item lists, queries, k and k', ignore lists, permutations of the items", "why_tests_cant": "all inputs and all orders", "anchors": ["pkg/search/search.go:Search"]}
{"id": "C101", "title": "The way the reader delivers its bytes does not matter", "statement": "Training and loading vectors see the same words or lines however the io.Reader cuts its bytes into Read calls (also inside a multi-byte space, a word or a CRLF, and across the growth and shifting of the 64 KiB scan buffer). For every text whose words have at most 65533 bytes the words delivered are exactly the words of the text; for every text whose lines have at most 65535 bytes the lines delivered are its lines; a longer token ends the input with an error after the tokens in front of it, never with a cut or skipped token. Only a last word that fills the buffer exactly is treated differently by a reader that reports the end together with the last bytes.", "quantifier": "all inputs, all sequences of read sizes, readers that report the end with the last bytes or after them", "why_tests_cant": "The behaviour depends on where each Read happens to end; tests use readers (strings, small files) that deliver everything in one piece.", "anchors": ["pkg/corpus/cpsutil/cpsutil.go: scanner, ReadWord", "pkg/embedding/embedding.go: Load, parse"]}
{"id": "C102", "title": "Several calls on one model object", "statement": "WordVector and Save on a model that has not been trained panic. A successful Train replaces words and vectors completely: whatever was called before, successful or failed, the model afterwards is one that a single Train of a new model with the same options can produce - except that word2vec and LexVec go on with the learning rate the previous training has left (it stays finite, non-negative and at most the larger of initlr and min-lr), so a second Train may return its random start untouched. A Train that fails because the text cannot be read leaves a mixture: the words of the new text with the vectors of the old one, which WordVector and Save then present without an error; when the new text has more words than the old one they panic.", "quantifier": "all options, all texts, all sequences of Train calls with their results, all schedules and random streams of each call", "why_tests_cant": "Tests call Train once on a new model; the state left by earlier calls and by failures half-way is not exercised.", "anchors": ["pkg/model/word2vec/word2vec.go: NewForOptions, Train, WordVector, Save", "pkg/model/glove/glove.go: NewForOptions, Train, WordVector, Save", "pkg/model/lexvec/lexvec.go: NewForOptions, Train, observe, WordVector, Save"]}
{"id": "C103", "title": "How negative samples are distributed", "statement": "Let NextRandom(v) be called repeatedly. Over any 2^64 successive calls every value 0..v-1 is returned floor(2^64/v) or floor(2^64/v)+1 times (one more exactly for the values below 2^64 mod v): the negative samples are uniform over the vocabulary, not weighted by word frequency. If v is a power of two, any v successive calls return every value exactly once; if 2^e divides v, the results modulo 2^e run through a fixed cycle of length 2^e, so with an even vocabulary successive negative samples are alternately even and odd ids. Hence for a vocabulary of V = 2^e words and NegativeSampleSize = m*V, every optimizer call of word2vec uses each other word exactly m times as a negative sample, and every LexVec step updates the context row of each word exactly m times per context position.", "quantifier": "every generator state, every bound, every vocabulary size, every m, document, position and parameter values", "why_tests_cant": "2^64 calls cannot be enumerated, and all states, sizes and multiples are meant", "anchors": ["pkg/model/modelutil/modelutil.go:NextRandom", "pkg/model/word2vec/optimizer.go:negativeSampling.optim", "pkg/model/lexvec/lexvec.go:trainOne"]}
{"id": "C104", "title": "Only which words are equal matters: respelling the words of a text respells the result", "statement": "If every word of a text is replaced by another one - different words by different words (and compatibly with strings.ToLower when that option is on) - then for every schedule Train of word2vec, GloVe and LexVec reaches exactly the same parameters, tables and items with the words respelled, fails alike, and Save writes the same lines with the first column respelled. In particular the white space between words is irrelevant.", "quantifier": "all texts that can be read, all spellings, all options, all random numbers, all iteration orders of maps, all schedules of the goroutines", "why_tests_cant": "the claim compares all runs on all pairs of texts related by an arbitrary respelling; tests compare a few runs of a racy program", "anchors": ["pkg/corpus/dictionary/dictionary.go: Add, ID", "pkg/corpus/memory/memory.go: Load", "pkg/corpus/fs/fs.go: Load, BatchWords", "pkg/corpus/cpsutil/cpsutil.go: ReadWord, ReadWordWithForwardContext", "pkg/model/word2vec/word2vec.go: Train, Save", "pkg/model/glove/glove.go: Train, Save", "pkg/model/lexvec/lexvec.go: Train, Save"]}
{"id": "C105", "title": "ToLower is lower-casing the text beforehand", "statement": "Training with the ToLower option on a text reaches exactly the models that training without it reaches on the text whose words were lower-cased: for word2vec always, for GloVe and LexVec with in-memory corpora (file-backed corpora look co-occurring words up as read, C11).", "quantifier": "all readable texts, all functions as lower-casing, all options, random numbers and schedules", "why_tests_cant": "quantifies over every text and every schedule; also separates the corpora for which it fails", "anchors": ["pkg/corpus/memory/memory.go: Load", "pkg/corpus/fs/fs.go: Load, BatchWords", "pkg/model/word2vec/word2vec.go: Train", "pkg/model/glove/glove.go: Train", "pkg/model/lexvec/lexvec.go: Train"]}
{"id": "C106", "title": "Infinite and NaN parameters never recover", "statement": "During a training, once a component of the parameters (or of AdaGrad's accumulators, or of the context vectors of negative sampling) is infinite or NaN it never becomes finite again, and NaN stays NaN, whatever the schedule of the goroutines (one trainOne call being one step). In GloVe and LexVec a single NaN component of a row makes every component of both rows NaN at the next update of a pair containing that row. word2vec with negative sampling stops instead: training a word whose window contains a word with a NaN component does not return. Only a data race inside trainOne can overwrite a NaN with a finite number.", "quantifier": "all options, texts, schedules, learning rates and parameter values; all points of an execution", "why_tests_cant": "The property relates any two points of any execution; tests see a few final states of a few schedules.", "anchors": ["pkg/model/glove/solver.go:38-99", "pkg/model/lexvec/lexvec.go:220-232", "pkg/model/word2vec/optimizer.go:52-91", "pkg/model/word2vec/model.go:48-157", "pkg/model/word2vec/sigmoid_table.go:43-45"]}
{"id": "C107", "title": "word2vec with hierarchical softmax and data races: crashes, permanently wrong paths, and what cannot go wrong", "statement": "Training word2vec with hierarchical softmax with two goroutines on a usable text (a b a b) and usable options can panic in GetPath under some interleaving of the goroutines' statements; under another interleaving it finishes without any error but the cached path of a word is wrong, and every later GetPath of that word returns the wrong path. Under every interleaving, in every iteration, the parameters keep their shape and the node vectors their lengths, no goroutine runs forever, and the only statements that can fail are the cut of the cached path in GetPath, following a nil element of a path, and the sigmoid lookups of C29. Once every word's path is cached, the caches never change again and only the sigmoid lookups of C29 can fail. A goroutine that runs alone computes exactly what the sequential description of training says (parameters, node vectors, cached paths, random numbers used, failures), from the state every usable training starts in.", "quantifier": "existential over interleavings for the failures; all interleavings, texts, options, sigmoid tables, numbers of goroutines and iterations for what cannot go wrong; all texts, options and random sources for the single goroutine", "why_tests_cant": "The failures need particular interleavings that the race detector only reports when they happen; what cannot fail ranges over all interleavings; the correctness for one goroutine ranges over all texts and options.", "anchors": ["pkg/model/word2vec/optimizer.go:hierarchicalSoftmax.optim", "pkg/corpus/dictionary/node/node.go:GetPath", "pkg/model/word2vec/model.go:skipGram.trainOne", "pkg/model/word2vec/model.go:cbow.trainOne", "pkg/model/word2vec/word2vec.go:trainPerThread"]}
{"id": "C108", "title": "Huffman paths are short: a MaxDepth of 91 or more never has an effect", "statement": "If a dictionary was built from N words, the root-to-leaf path of every word in the Huffman tree, counted in nodes L, satisfies Fibonacci(L+1) <= N (hence 2^(L/2) <= N), and the bound is attained. So GetPath with any depth limit of at least k returns the whole path, after any earlier calls, when N < Fibonacci(k+2); and word2vec training with hierarchical softmax can return exactly the same models for any two values of MaxDepth that are at least k. For texts of fewer than 2^63 words this holds for k = 91, so the default of 100 never truncates a path.", "quantifier": "all sequences of dictionary additions, all words, all histories of GetPath calls, all texts, options, schedules and random numbers", "why_tests_cant": "Tests build trees for a few texts; the bound needs the optimality of the tree for every frequency distribution, and no test can run texts long enough to reach the default limit.", "anchors": ["pkg/corpus/dictionary/huffman.go: HuffnamTree", "pkg/corpus/dictionary/node/node.go: GetPath", "pkg/model/word2vec/options.go: defaultMaxDepth", "pkg/model/word2vec/optimizer.go: optim"]}
{"id": "C109", "title": "Hierarchical softmax is a probability distribution exactly when MaxDepth cuts no path, and training ascends it", "statement": "Give each inner node of the Huffman tree any probability for its code-0 child. Then the products along the paths that GetPath returns are positive for every word and add up to 1 over the dictionary if the depth limit cuts no path; if it cuts the path of some word, they add up to more than 1. The derivative of the logarithm of a word's probability in the score of an inner node on its path is 1 - code of the next node - logistic(score), the factor with which training moves the vectors (C93).", "quantifier": "all dictionaries with at least one (two) words, all node probabilities, all depth limits, all words and nodes on their paths", "why_tests_cant": "A test can add up the probabilities of one tree with one set of vectors; that they form a distribution for all trees and vectors, and never under truncation, is a theorem about the tree.", "anchors": ["pkg/corpus/dictionary/huffman.go: HuffnamTree", "pkg/corpus/dictionary/node/node.go: GetPath", "pkg/model/word2vec/optimizer.go: hierarchicalSoftmax.optim"]}
{"id": "C110", "title": "Hierarchical softmax visits, per word, the entropy of the text plus less than one node on average", "statement": "If a dictionary was built from N words with entropy H bits per word and V different words, the total number of inner nodes on the paths of all N word occurrences is at least N*H, less than N*(H+1), and at most N*ceil(log2 V).", "quantifier": "all sequences of dictionary additions with at least one word", "why_tests_cant": "The bounds hold for every frequency distribution; tests can only measure single texts.", "anchors": ["pkg/corpus/dictionary/huffman.go: HuffnamTree", "pkg/corpus/dictionary/node/node.go: GetPath"]}
{"id": "C111", "title": "Similarity is symmetric up to rounding, and being a neighbour is mutual", "statement": "For two vectors of the same length whose components are 0 or of magnitude between 2^-100 and 2^100, the similarity of a to b and that of b to a differ by at most 5*2^-53 of their value and are positive together; they are not always equal (the code divides by the query's length first). Hence in a loaded file with distinct words, when k is at least the number of words, b is returned by SearchInternal(a, k) exactly if a is returned by SearchInternal(b, k).", "quantifier": "all vectors of moderate finite numbers up to 2^20 components, all loaded files, all pairs of words, all sufficient k", "why_tests_cant": "rounding behaviour over all pairs of float64 vectors; tests see only pairs that happen to agree", "anchors": ["pkg/search/searchutil/searchutil.go: Cosine", "pkg/search/search.go: SearchInternal, Search", "pkg/embedding/embutil/embutil.go: Norm"]}
{"id": "C112", "title": "Progress reports: what Verbose prints, and that it changes nothing else", "statement": "With Verbose, Load, makeItems, Train and Save print, in increasing order, the counts that are multiples of |LogBatch| (LexVec's Load: |BatchSize|; Save: the ids, from 0) and, when done, the total: the words of the text, the co-occurrence pairs counted, the cells of the matrix, the words that survive the filters (also those subsampling skips), the words saved. Without Verbose nothing is printed, and corpus, items, files and results are the same in both cases. During training this holds for every schedule: at any time the lines of an iteration are the beginning of the list above, all of it once the iteration's observer has ended; when Train returns, at most the line of the last tick and the total may be missing, and if Train can return at all it can return before the last iteration's total is printed.", "quantifier": "all texts, options, pair lists, matrices and destinations; all schedules of the training goroutines and all their reachable states", "why_tests_cant": "schedule-dependent output of a goroutine nobody waits for: a test sees one interleaving, usually the complete one", "anchors": ["pkg/util/verbose/verbose.go", "pkg/corpus/memory/memory.go: Load", "pkg/corpus/fs/fs.go: Load", "pkg/model/glove/item.go: makeItems", "pkg/model/lexvec/item.go: makeItems", "pkg/model/word2vec/word2vec.go: train, batchTrain, observe", "pkg/model/glove/glove.go: observe", "pkg/model/lexvec/lexvec.go: observe", "pkg/model/modelutil/vector/vector.go: Save"]}
{"id": "C113", "title": "What co-occurrence counts add up to, and how they depend on the text and the window", "statement": "With count type inc, the counts of an in-memory corpus add up to the number of pairs of positions at most Window apart, (n-1)+(n-2)+...+(n-Window); a file-backed corpus counts exactly (w-1)(w-2)/2 pairs less for window w on every longer text. Counts are symmetric whole numbers; reading the text backwards leaves them unchanged; a larger window or more text at the end never lowers one; the count of two different words is at most 2*Window times the frequency of either, of a word with itself at most Window times its frequency; and when the window covers the whole text, two different words are counted f1*f2 times and a word with itself f(f-1)/2 times.", "quantifier": "all texts whose words fit the scanner (at most 2^32 different words), all windows, ToLower functions, filters and logging options; totals up to 2^53 pairs", "why_tests_cant": "the number of pairs, orders of words and windows is unbounded; tests check single texts", "anchors": ["pkg/corpus/memory/memory.go: Load", "pkg/corpus/fs/fs.go: Load", "pkg/corpus/cooccurrence/cooccurrence.go: Add"]}
{"id": "C114", "title": "GloVe and LexVec perform gradient descent on the weighted squared error of a pair", "statement": "Up to stated rounding errors, the stochastic update of GloVe moves every vector component and every bias of both words of a pair by minus the learning rate times the derivative of weight/2 * (vector.vector + bias + bias - value)^2 at the old values, both sides reading the old row of the other; AdaGrad adds the square of that step to the accumulator and divides the step of a component by the square root of the new accumulator, but the step of a bias by the square root of the old one; LexVec does the same for 1/2 * (vector.vector - value)^2. The rows keep their length and no other row changes. For a learning rate that is not too large and an error that is not negligible, the cost goes down.", "quantifier": "all dimensions, tables, pairs of different rows, learning rates, values and weights with rows of at most 2^20 finite components, length at most 30, biases and value at most 30, rate*weight in [0,1] and rate*weight*|error| at most 1/2; accumulators from 1 to 10^6", "why_tests_cant": "a derivative and rounding errors over all real-valued rows of any dimension cannot be sampled", "anchors": ["pkg/model/glove/solver.go: (*stochastic) trainOne, (*adaGrad) trainOne", "pkg/model/lexvec/lexvec.go: update"]}
{"id": "C115", "title": "Repeating the update of one pair brings its error down to rounding noise", "statement": "GloVe sgd: when the same co-occurring pair is updated n times with a learning rate that leaves room for it, nothing overflows, no row but the two of the pair changes, and the error |w·c + b_w + b_c − log count| is at most (1−rate)^n times what it was at first, plus 10^-6/rate for rounding. Hence, on a text with a single co-occurring pair of two different words, training ends with both combinations of the pair (word vector of one, context vector of the other) fitted to within (1−rate)^Iter·(4/Dim + |log count|) + 10^-6/rate, whatever the random initial values, the number of goroutines and their schedule.", "quantifier": "all dimensions up to 2^20, rows of finite numbers, numbers of updates n, counts and learning rates with rate·(L²+2+T) ≤ 1/2; for trainings, all random draws in [0,1), all numbers of goroutines and all their interleavings (an item as one step), all orders in which Go iterates over the map of counts", "why_tests_cant": "The bound holds for every number of repetitions and every starting point; a test runs one training and rounding errors could accumulate in another.", "anchors": ["pkg/model/glove/solver.go: (*stochastic) trainOne", "pkg/model/glove/glove.go: Train, trainPerThread, makeItems"]}
{"id": "C116", "title": "Repeating a LexVec update of one pair brings its error down to rounding noise", "statement": "LexVec: when the update of one pair of different rows is repeated n times with a learning rate that leaves room for it, nothing overflows, no row but the two changes, the two vectors do not collapse (their lengths together stay at least m), and the error |v1·v2 − value| is at most (1−c)^n times what it was at first, plus 10^-6/c for rounding, where c = rate·m²/4.", "quantifier": "all dimensions up to 2^20, all pairs of different rows of finite numbers, all values of magnitude at most 30, numbers of updates n and learning rates that leave room: with T = (4/m²)·|error| + n·(4/m²+1)/10^5, m is at least 1/1000, the lengths together are at least m·exp(2T), L = (lengths + 1)·exp(T) is at most 30, and rate·(L² + |error| + n/10^5) ≤ 1/4", "why_tests_cant": "The bound holds for every number of repetitions and every starting point; a test runs a few updates from one point, and rounding errors could accumulate in another.", "anchors": ["pkg/model/lexvec/lexvec.go: (*lexvec) update"]}
{"id": "C117", "title": "A LexVec update of a word against itself brings its squared length closer to the value", "statement": "LexVec: when a word stands next to itself, both vectors of the update are the same row, and it is moved twice. Even so the update is a step towards the value: if rate·(2|v|² + |error|) ≤ 1/2, where error = |v|² − value, the row stays finite, no other row changes, and the error shrinks by the factor 1 − 2·rate·|v|², up to 10^-6 from rounding. Repeated n times with a learning rate that leaves room for it, the row does not collapse (its length stays at least m) and the error is at most (1−c)^n times what it was at first, plus 10^-6/c, where c = 2·rate·m².", "quantifier": "all rows of at most 2^20 finite components with length at most 30, values of magnitude at most 30, learning rates satisfying the condition; for repetitions, all n that leave room: with T = (4/m²)·|error| + n·(4/m²+1)/10^5, m ≥ 1/1000, |v| ≥ m·exp(2T), L = (|v|+1)·exp(T) ≤ 30 and 2·rate·(L² + |error| + n/10^5) ≤ 1/4", "why_tests_cant": "A quantitative statement about float64 arithmetic over all vectors, in the aliased case; a unit test checks single numeric updates.", "anchors": ["pkg/model/lexvec/lexvec.go: (*lexvec) update"]}
