{
 "C89": "pflag 1.0.5's parser is modelled from its documented behaviour; strconv.ParseInt/ParseFloat are arbitrary functions; taken after cobra has chosen the command",
 "C90": "configurations whose numbers some text parses to",
 "C91": "composition; -prof excluded in the *_query theorems; lines of the file at most 65535 bytes as in C68",
 "C93": "math.Exp enters as a hypothesis (relative error at most 2^-40 on [-7, 7]), met by the correctly rounded exponential; vectors are ordinary (C61) and of moderate length.",
 "C94": "All-runs bound with an item as one step; C94_races_exceed is the witness that statement-level overlap breaks it.",
 "C95": "Equivalence (both directions) between scheduled runs and interleavings, pass by pass; item granularity (C82/C85 treat finer steps).",
 "C96": "Storable vectors: finite, |x| <= 2^399, length above sqrt(dim)/10^6 (otherwise rounding may make the vector zero).",
 "C97": "Exact-arithmetic error of the pair before and after the float64 update; C97_diverges shows the rate condition is needed.",
 "C98": "Lag bound Goroutines+1 is shown to be reached (C98_lag_is_reached).",
 "C102": "trainOne is one step here, as in C82/C83; failures of Train are included.",
 "C106": "trainOne is one step; C106_race_overwrites shows why this is needed.",
 "C107": "Statement-level interleavings (Model/RaceHS, GetPathRace).",
 "C111": "Components 0 or of magnitude 2^-100..2^100; C111_not_symmetric gives a pair that differs.",
 "C112": "Printed counts only; times are not modelled.",
 "C113": "Window arithmetic on integers, count type inc.",
 "C114": "Derivatives are those of Coquelicot (is_derive) of the exact weighted squared error; rounding bounded explicitly.",
 "C115": "GloVe with the sgd solver; C115_case instantiates it.",
 "C30": "math.Exp is a parameter: positive and finite on [-7,7], for the monotone results also within 2^-50 relative.",
 "C116": "One pair updated again and again; C116_case instantiates it. Without a floor for the lengths there is no contraction: an update scales with the rows themselves.",
 "C117": "The case of C97 where the two rows coincide; C117_case and C117_repeat_case instantiate it."
}