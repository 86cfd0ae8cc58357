{"id": "C01", "title": "Log-space addition is exact and stays in range", "statement": "logsumexp(v1,...,vk) and logsumexp2(a,b) return the logarithm of the sum of the exponentials of their arguments, for any real arguments in any order; no intermediate exponential they compute exceeds 1, so shifting by the maximum cannot overflow; logsumexp of no arguments raises.", "quantifier": "every finite list of real arguments, every order", "why_tests_cant": "A test samples some argument magnitudes; every probability in the library flows through these two functions for all magnitudes.", "anchors": ["model.py:logsumexp", "model.py:logsumexp2", "helpers.py:log_sum_exp", "modelfast.py:logsumexp2"]}
{"id": "C02", "title": "KT predictions always form a probability distribution", "statement": "After any sequence of update() calls with non-negative weights on symbols of the alphabet, a KT estimator's predicted probabilities are positive and sum to one over its alphabet.", "quantifier": "every non-empty duplicate-free alphabet, every finite update history, every non-negative weights", "why_tests_cant": "There are unboundedly many histories and weights; an incremental running sum may drift from the per-symbol counts only on some of them.", "anchors": ["model.py:KT", "model.py:KT.update", "model.py:KT.log_predict"]}
{"id": "C03", "title": "KT predictions depend only on how often each symbol was seen", "statement": "The probability KT assigns to a symbol is (1/|A| + weight seen for that symbol) / (1 + total weight seen): it does not depend on the order of the history, and the total probability of a sequence is invariant under permutation of the sequence.", "quantifier": "every alphabet, every history and every permutation of it", "why_tests_cant": "Order independence is a statement about all permutations of all sequences.", "anchors": ["model.py:KT"]}
{"id": "C04", "title": "update() returns exactly what log_predict() would have returned", "statement": "For KT, KTBinary, SAD, Averager, CTW, CTW_KT and Factored: the value returned by update(symbol, history) equals the value log_predict(symbol, history) would have returned on the same state just before.", "quantifier": "every reachable model state, every symbol and history", "why_tests_cant": "The two code paths are separate implementations of the same quantity; a test compares them on a few states only, and the partition boundaries where they differ are sparse.", "anchors": ["model.py:KT", "model.py:KTBinary", "model.py:SAD", "model.py:Averager", "model.py:CTW", "model.py:CTW_KT", "model.py:Factored"]}
{"id": "C05", "title": "KT redundancy is logarithmic", "statement": "On every binary sequence of length n the KT estimator's total log loss exceeds that of the best constant-bias coin chosen in hindsight by at most (1/2) ln n + ln 2.", "quantifier": "every binary sequence of every length, every comparison bias", "why_tests_cant": "A worst-case bound over 2^n sequences for every n.", "anchors": ["model.py:KT", "model.py:KTBinary"]}
{"id": "C06", "title": "KTBinary is KT on the alphabet {0,1}", "statement": "KTBinary() and KT((0,1)) return the same value for every update and log_predict, after any common history of updates.", "quantifier": "every sequence of update/log_predict calls with binary symbols", "why_tests_cant": "Equivalence of two implementations over all call sequences.", "anchors": ["model.py:KT", "model.py:KTBinary"]}
{"id": "C07", "title": "SAD predictions sum to one while unseen symbols remain", "statement": "For an alphabet of n symbols, as long as fewer than n distinct symbols were seen, SAD's probabilities over the whole alphabet sum to one. Users expect the same after every symbol has been seen.", "quantifier": "every alphabet size, every update history", "why_tests_cant": "The formula has an adaptive escape mass depending on the whole history; whether it normalises is a statement over all histories.", "anchors": ["model.py:SAD"]}
{"id": "C08", "title": "Averager is the Bayesian mixture of its models", "statement": "The total log probability an Averager of n distinct models assigns to a sequence is the log of the average of the probabilities the n models assign to it; its predictions sum to one over an alphabet whenever those of every member do.", "quantifier": "every non-empty list of distinct models, every sequence", "why_tests_cant": "Mixture identity over all histories; accumulates through log-space updates.", "anchors": ["model.py:Averager"]}
{"id": "C09", "title": "Averager is never much worse than its best model", "statement": "On every sequence the Averager's total log loss exceeds that of each of its n models by at most ln n, and it is never better than the best of them.", "quantifier": "every sequence, every member model", "why_tests_cant": "Worst-case guarantee over all sequences.", "anchors": ["model.py:Averager"]}
{"id": "C10", "title": "Averager.map returns a maximum-a-posteriori model", "statement": "map() returns a member whose posterior weight is at least that of every other member, the first such in insertion order.", "quantifier": "every reachable Averager", "why_tests_cant": "Universally quantified over states including ties.", "anchors": ["model.py:Averager.map"]}
{"id": "C11", "title": "CTW computes the context-tree weighting recursion", "statement": "After any sequence of updates the CTW total probability equals the recursively defined weighted probability: base model at depth D, and one half base model plus one half the product over next-context-symbols above it, where each node's base model saw exactly the symbols whose context passes through that node.", "quantifier": "every depth >= 1, every lawful base model, every history and symbol sequence", "why_tests_cant": "The implementation is incremental and lazily grows the tree; agreement with the definition must hold for all sequences and depths.", "anchors": ["model.py:CTW", "model.py:CTW.Node.update"]}
{"id": "C12", "title": "CTW is a mixture over all context trees and competes with each of them", "statement": "The CTW probability is the sum over all binary context trees of depth at most D of 2^-cost(tree) times the product over the leaves of the base model's probability of the symbols seen there; hence its log loss exceeds that of any such tree by at most cost*ln 2.", "quantifier": "every depth, every sequence, every context tree", "why_tests_cant": "Doubly exponential number of trees; worst case over all sequences.", "anchors": ["model.py:CTW"]}
{"id": "C13", "title": "CTW predictions form a probability distribution", "statement": "For every reachable CTW state and history, the predicted probabilities over the base model's alphabet are positive and sum to one, if the base model's do.", "quantifier": "every reachable state, every history, every depth", "why_tests_cant": "Quantifies over all reachable trees.", "anchors": ["model.py:CTW.log_predict"]}
{"id": "C14", "title": "CTW.log_predict has no observable effect on predictions", "statement": "Although log_predict creates tree nodes, any later sequence of update and log_predict calls returns the same values whether or not extra log_predict calls were made.", "quantifier": "every interleaving of log_predict calls into every call sequence", "why_tests_cant": "All interleavings of reads and writes.", "anchors": ["model.py:CTW.Node.log_predict", "model.py:CTW_KT.Node.log_predict"]}
{"id": "C15", "title": "CTW conditions on exactly the last depth symbols", "statement": "The default context consists of the last depth symbols of the history, padded with zeros on the old side when the history is shorter; predictions do not depend on older symbols.", "quantifier": "every depth (including 0) and every history", "why_tests_cant": "Boundary cases of slicing over all lengths.", "anchors": ["model.py:CTW._mkcontext", "model.py:CTW_KT._mkcontext", "modelfast.py:CTW_KT._mkcontext"]}
{"id": "C16", "title": "CTW.size counts the nodes of the tree", "statement": "The size attribute of a CTW equals the number of nodes of its tree after any calls, and grows by at most depth per call.", "quantifier": "every call sequence", "why_tests_cant": "Counter/structure agreement over all histories, including after copy().", "anchors": ["model.py:CTW.node_factory", "model.py:CTW.copy"]}
{"id": "C17", "title": "CTW_KT and the C implementation agree with generic CTW", "statement": "CTW_KT(depth), the C-backed modelfast.CTW_KT(depth) and CTW(depth) with its defaults return the same values on every sequence of calls.", "quantifier": "every depth >= 1, every call sequence over binary symbols", "why_tests_cant": "Equivalence of three implementations over all inputs.", "anchors": ["model.py:CTW_KT", "model.py:CTW", "modelfast.py:ctwnode_update"]}
{"id": "C18", "title": "Copies of a CTW are independent despite shared nodes", "statement": "After copy(), updates and predictions on either object (and on further copies, in any interleaving) never change what the other objects return: each behaves as if the copy had been deep.", "quantifier": "every interleaving of copy/update/log_predict over any number of objects", "why_tests_cant": "Copy-on-write with reference counts: aliasing bugs appear only for particular sharing patterns and interleavings.", "anchors": ["model.py:CTW_KT.Node.copy", "model.py:CTW_KT.Node.update", "model.py:CTW.Node.copy"]}
{"id": "C19", "title": "The C context tree never uses freed memory and frees everything", "statement": "In modelfast, for any interleaving of new/update/log_predict/copy/destroy on any number of models, no node is accessed after being freed, no node is freed twice, a shared node is never modified through one owner, and when the last owner is destroyed every node has been freed.", "quantifier": "every interleaving of calls on any number of models", "why_tests_cant": "Memory-safety over all sharing patterns; a test may run a use-after-free without noticing.", "anchors": ["modelfast.py:ctwnode_free", "modelfast.py:ctwnode_copy", "modelfast.py:ctwnode_update", "modelfast.py:CTW_KT"]}
{"id": "C20", "title": "PTWFixedLength computes the partition-tree weighting recursion", "statement": "For any sequence not longer than the declared length, its total probability is the PTW recursion of height ceil(log2(length)): one half base model on the whole segment plus one half the product of the recursion on the two halves, with the base model alone on segments of minimum length.", "quantifier": "every length, every minimum partition length, every base model, every sequence within the length", "why_tests_cant": "The implementation keeps only the right spine of the tree and promotes nodes lazily; equality with the definition is for all sequences.", "anchors": ["model.py:PTWFixedLength", "model.py:PTW.Node.update"]}
{"id": "C21", "title": "PTW is a mixture over binary temporal partitions and competes with each of them", "statement": "The PTW probability of height d is the sum over all binary temporal partitions of 2^-cost times the product of the base probabilities of the segments; hence its log loss exceeds that of the best partition by at most cost * ln 2.", "quantifier": "every height, every sequence, every binary temporal partition", "why_tests_cant": "Doubly exponential family of partitions, all sequences.", "anchors": ["model.py:PTW", "model.py:PTWFixedLength"]}
{"id": "C22", "title": "PTW.update yields a coherent probability measure with unknown horizon", "statement": "PTW.update on a sequence of unknown length returns the log of PTW_h(x_1..x_t+1)/PTW_h(x_1..x_t) with h the height needed for t+1 symbols; the values exp(update(a)) over the symbols a of the alphabet sum to one at every point.", "quantifier": "every reachable PTW state, every base model that is normalised", "why_tests_cant": "The adjustment factors at powers of two must telescope for all times.", "anchors": ["model.py:PTW.update", "model.py:PTW.Node.update"]}
{"id": "C23", "title": "Not knowing the sequence length costs PTW at most ln(3/2) per doubling", "statement": "PTW's total log probability is at least that of the fixed-height PTW of the same sequence minus ln(3/2) times the number of promotions of the root.", "quantifier": "every sequence", "why_tests_cant": "Worst case over all sequences.", "anchors": ["model.py:PTW.update"]}
{"id": "C24", "title": "PTW.log_predict agrees with PTW.update", "statement": "For PTW, PTWFixedLength and FMN, log_predict(symbol, history) equals what update(symbol, history) would return, and its probabilities sum to one, in every state.", "quantifier": "every reachable state including partition boundaries", "why_tests_cant": "Differs only at times when some right-spine partition is exactly complete.", "anchors": ["model.py:PTW.Node.log_predict", "model.py:PTW.log_predict"]}
{"id": "C25", "title": "min_partition_length is rounded up to a power of two", "statement": "PTW and FMN use partitions of at least min_partition_length symbols, rounding it up to a power of two as documented.", "quantifier": "every min_partition_length >= 1", "why_tests_cant": "Rounding behaviour for all integers.", "anchors": ["model.py:PTW.__init__", "model.py:FMN.__init__"]}
{"id": "C26", "title": "The older PTW implementations agree with the recursion and with their own log_predict", "statement": "ctw.PTW(height, Base) and learners.PTW(depth, Model) compute the same PTW recursion of that height, and their log_predict equals what update would return (the increase of the total log probability), in every state within the maximal length; learners.PTW refuses further updates.", "quantifier": "every height, every sequence of length at most 2^height, every base model", "why_tests_cant": "Three different incremental data structures; equivalence over all sequences.", "anchors": ["ctw.py:PTW", "learners.py:PTW.update", "learners.py:PTW.log_predict"]}
{"id": "C27", "title": "LogStore keeps a logarithmic, recency-weighted selection", "statement": "After n >= 1 adds of x_0..x_{n-1}, iterating the store yields exactly x_{2^k(floor(n/2^k)-1)} for k = 0..floor(log2 n), newest first: floor(log2 n)+1 items, the newest always first, the oldest kept last. learners.LogStore behaves identically.", "quantifier": "every number of adds", "why_tests_cant": "Closed form for all n; the repo's test checks up to 64.", "anchors": ["model.py:LogStore.add", "learners.py:LogStore", "ctw.py:LogStore"]}
{"id": "C28", "title": "LogStoreUniform keeps a logarithmic, evenly spaced selection", "statement": "At any time LogStoreUniform contains the first item, its items are in order of age, consecutive retained indices differ by the current gap or twice it, and the number of items is logarithmic in the number of adds; s[0] is the newest and s[-1] the oldest retained item.", "quantifier": "every number of adds, every index", "why_tests_cant": "Invariant over unbounded add sequences with phase changes.", "anchors": ["model.py:LogStoreUniform.lazy_add", "model.py:LogStoreUniform.__getitem__"]}
{"id": "C29", "title": "FMN.update is a probability measure", "statement": "For FMN, the values exp(update(a)) over the alphabet sum to one in every reachable state, if the base models' do.", "quantifier": "every reachable FMN state", "why_tests_cant": "Base models are mixtures of retained copies chosen adaptively from the past; must hold for every adaptive choice.", "anchors": ["model.py:FMN.update", "model.py:FMN.model_factory"]}
{"id": "C30", "title": "FMN stores one model per period and never more than logarithmically many", "statement": "After t updates with period m = 2^min_height, exactly 1 + floor(t/m) models have been offered to the store, so a LogStore-backed FMN retains floor(log2(1+floor(t/m)))+1 models, among them always the initial one.", "quantifier": "every t, every period", "why_tests_cant": "Invariant over unbounded runs.", "anchors": ["model.py:FMN.update", "model.py:LogStore.lazy_add"]}
{"id": "C31", "title": "FMN competes with re-using any retained model on any partition", "statement": "For any binary temporal partition of the data and any choice, for each segment, of a model retained when that segment begins, FMN's log loss exceeds the loss of using these models on their segments by at most cost(partition)*ln 2 plus the sum of ln(number retained) over the segments, plus ln(3/2) per doubling of the length for not knowing the length.", "quantifier": "every sequence, partition and assignment of retained models", "why_tests_cant": "Worst-case regret over all data, partitions and assignments.", "anchors": ["model.py:FMN", "model.py:Averager"]}
{"id": "C32", "title": "Factored routes each symbol to the model of its position", "statement": "A Factored model of k factors uses factor (len(history) mod k) for each prediction and update, leaves the other factors unchanged, passes on the caller's arguments, and its total log probability is the sum of the factors' on their own symbols.", "quantifier": "every history length, every number of factors, every weight", "why_tests_cant": "All positions/histories; the dropped argument is invisible with the default weight.", "anchors": ["model.py:Factored"]}
{"id": "C33", "title": "update_seq and log_predict_seq leave the caller's history as they found it", "statement": "update_seq(seq, history) returns the sum of the single-symbol updates on the growing history and history is unchanged when it returns; same for log_predict_seq.", "quantifier": "every sequence including the empty one, every history, every model", "why_tests_cant": "In-place list manipulation with negative slice bounds: the empty sequence is a boundary case.", "anchors": ["model.py:Model.update_seq", "model.py:Model.log_predict_seq"]}
{"id": "C34", "title": "Arithmetic coder: decompress inverts compress on bit streams", "statement": "decompress(m, compress(m', bits), len(bits)) yields bits again, for two copies m, m' of any model whose predict(0) agrees with the probability used by the encoder.", "quantifier": "every bit sequence, every deterministic model satisfying the precision conditions", "why_tests_cant": "Round trip over all messages and models; encoder and decoder rescale their intervals differently.", "anchors": ["ac.py:compress", "ac.py:decompress", "ac.py:BinaryArithmeticEncoder", "ac.py:BinaryArithmeticDecoder"]}
{"id": "C35", "title": "Arithmetic coder: the encoder always makes progress", "statement": "encode() terminates on every symbol the model gives positive probability and leaves the working interval non-empty and straddling the midpoint; no symbol costs an unbounded number of output bits.", "quantifier": "every coder state and every symbol/probability", "why_tests_cant": "Termination is not testable; degenerate probabilities are rare.", "anchors": ["ac.py:BinaryArithmeticEncoder.encode"]}
{"id": "C36", "title": "Arithmetic coder: compressed length matches the model's probability", "statement": "The number of bits produced for a message is at most 2 plus the base-2 log loss of the (integer-quantised) probabilities used.", "quantifier": "every message, every model", "why_tests_cant": "Bound over all messages.", "anchors": ["ac.py:BinaryArithmeticEncoder.encode", "ac.py:BinaryArithmeticEncoder.flush"]}
{"id": "C37", "title": "Arithmetic coder: byte-level round trip", "statement": "decompress_bytes(m, compress_bytes(m', data), len(data)) yields data again.", "quantifier": "every byte sequence", "why_tests_cant": "Bit order within bytes on both sides must match for all data; symmetric models hide mistakes.", "anchors": ["ac.py:compress_bytes", "ac.py:decompress_bytes", "ac.py:grouper"]}
{"id": "C38", "title": "Binary time helpers compute aligned block boundaries", "statement": "binary_boundary(t,d) is the greatest multiple of 2^d not exceeding t; mscb(t) is the highest bit that changes between t and t+1, i.e. the exponent of the largest power of two dividing t+1; at_partition_start(t,d) holds exactly when the current block of level d begins at t.", "quantifier": "every t >= 0, d >= 0", "why_tests_cant": "Bit tricks for all integers.", "anchors": ["helpers.py:binary_boundary", "helpers.py:mscb", "helpers.py:at_partition_start"]}
{"id": "C39", "title": "get_regions splits labelled data into its maximal constant runs", "statement": "get_regions maps every label that occurs (and no other) to the list of its maximal runs: half-open index ranges on which the data has that label and which cannot be extended, in order, for indices that start at any offset. Without labels it raises IndexError.", "quantifier": "every non-empty sequence of labels, any index offset", "why_tests_cant": "All sequences and run structures.", "anchors": ["helpers.py:get_regions"]}
{"id": "C40", "title": "Parameter sweeps enumerate each combination exactly once", "statement": "unique_dict_sets and get_all_combinations yield exactly the dictionaries that have the given keys and one listed value for each, as many as the product of the list lengths, without repetition when the lists have none. Without parameters unique_dict_sets yields one empty dictionary and get_all_combinations nothing.", "quantifier": "every dictionary of lists", "why_tests_cant": "All shapes of parameter dictionaries.", "anchors": ["helpers.py:unique_dict_sets", "utilities.py:get_all_combinations"]}
{"id": "C41", "title": "Shared keys, unique keys and shared values of parameter sets", "statement": "get_shared_keys returns the keys that every dictionary has, get_unique_keys the keys that some but not all dictionaries have, both sorted and without repetition; get_shared_values returns exactly the entries that every dictionary has.", "quantifier": "every non-empty list of dictionaries", "why_tests_cant": "All lists of dictionaries.", "anchors": ["utilities.py:get_shared_keys", "utilities.py:get_unique_keys", "utilities.py:get_shared_values"]}
{"id": "C42", "title": "calculate_return computes the discounted return", "statement": "With a discount below one calculate_return gives for each step the discounted sum of all rewards from that step on, whatever the horizon, and so satisfies the Bellman recursion; with a discount of at least one, or none, it gives the sum of the next `horizon` rewards. Called with its defaults it returns the return of the whole episode.", "quantifier": "every reward sequence, discount and non-negative horizon", "why_tests_cant": "All sequences/parameters including defaults.", "anchors": ["utilities.py:calculate_return", "features.py:calculate_return"]}
{"id": "C43", "title": "Tile coding stays within the declared feature range", "statement": "For inputs in the unit cube every active tile index lies in [0, num_features), there is one per tiling plus the bias, different tilings never share a tile, and two inputs share a tile of a tiling exactly when they are in the same cell of its grid.", "quantifier": "every input vector in the unit cube, every number of tilings, dimensions and tile width", "why_tests_cant": "Real-valued inputs at tile boundaries.", "anchors": ["sensors.py:TileCoder"]}
{"id": "C44", "title": "Protocol strings parse back to their parts", "statement": "Formatting a non-empty list of (name, steps) parts as a protocol string and parsing it returns the same parts exactly when the names have no underscore, the steps are not negative, and names of parts without steps do not end in a dash or a dash and an integer. Formatting a parsed string and parsing it again gives the same parts.", "quantifier": "every list of parts, every string", "why_tests_cant": "All strings.", "anchors": ["environments.py:Protocol.get_protocol_parts", "environments.py:Protocol.__str__", "helpers.py:format_protocol"]}
{"id": "C45", "title": "clean_string gives safe strings", "statement": "clean_string keeps exactly the letters, digits, underscores, dots and dashes of a string, so its output is safe for file names, a second application changes nothing and safe strings are left alone. Of nested lists and dictionaries it makes a safe string that does not depend on the order of the entries, raising exactly when some key is empty.", "quantifier": "every string, every nested list and dictionary", "why_tests_cant": "All strings.", "anchors": ["helpers.py:clean_string"]}
{"id": "C46", "title": "CoinFlip follows its change-point schedule", "statement": "The value at step t depends on the t-th random number after seeding and the probability in force, which changes at each change point, whatever the schedule; get_data and step-by-step calls give the same values; the probability is that of a one.", "quantifier": "every schedule, seed, random generator and time", "why_tests_cant": "All schedules.", "anchors": ["environments.py:CoinFlip"]}
{"id": "C47", "title": "Train and test data never overlap", "statement": "DataSplitter returns training and test sets that are disjoint and drawn from the data, in every mode. In mode 'sample' rows of different sets are more than gap rows apart, and the sets together have the rows of all sequences.", "quantifier": "every dataset, gap, sample length, seed and shuffle", "why_tests_cant": "All sizes and random choices.", "anchors": ["experiment.py:DataSplitter"]}
{"id": "C48", "title": "FileEnvironment extends or crops data to exactly the requested length, at once or step by step", "statement": "get_data_block returns exactly the requested number of rows, row i being source row i mod (number of source rows); get_all_data is the concatenation of the blocks of a protocol; repeated calls of update return the same rows, then None, then start again.", "quantifier": "every protocol, file content, requested length and number of calls", "why_tests_cant": "All sizes including exact multiples.", "anchors": ["environments.py:FileEnvironment.get_data_block", "environments.py:FileEnvironment.get_all_data", "environments.py:FileEnvironment.update"]}
{"id": "C49", "title": "The KT estimators of ctw.py and learners.py return what model.py's KT returns", "statement": "Over the same alphabet, ctw.KT and learners.KT give, after any sequence of updates, the same total log probability and the same predictions as model.KT, and raise on the same symbols.", "quantifier": "every alphabet of distinct symbols, every sequence of updates (any non-negative weights for ctw.KT, weight 1 for learners.KT, which takes none)", "why_tests_cant": "Three separate implementations with different bookkeeping (a running sum, a sum over a dictionary, a step counter); equality over all sequences.", "anchors": ["ctw.py:KT", "learners.py:KT", "model.py:KT"]}
{"id": "C50", "title": "get_outer_boundaries encloses a class in its neighbouring rest periods", "statement": "For regions computed by get_regions, get_outer_boundaries returns the span of all indices with the given label, extended on each side by the whole run of the rest label when that run is adjacent.", "quantifier": "every sequence of labels, every class and rest label that occur", "why_tests_cant": "The loop stops at the first rest run after the class; correctness over all run structures.", "anchors": ["helpers.py:get_outer_boundaries"]}
{"id": "C51", "title": "Running means and decaying traces are windowed and discounted sums", "statement": "running_mean(data, n) returns the mean of every full window of n values in order; decay_trace returns at every step the sum of all values so far discounted by their age, cut off at the maximum of the signal when replacing.", "quantifier": "every signal, every window of at least one step, every trace rate", "why_tests_cant": "All lengths and windows; the boundary windows n=1 and n=len are where slicing goes wrong.", "anchors": ["utilities.py:running_mean", "utilities.py:decay_trace"]}
{"id": "C52", "title": "scale_features maps a signal affinely onto the unit interval", "statement": "Without bounds the smallest value goes to 0, the largest to 1 and everything in between affinely; with bounds the scaled values are cut off at 0 and the cap. Every output lies in [0, cap].", "quantifier": "every signal, bounds and cap", "why_tests_cant": "Real-valued inputs, all signals; the constant signal is a separate branch.", "anchors": ["utilities.py:scale_features", "utilities.py:scale_val"]}
{"id": "C53", "title": "approx and all_approx compare with the stated tolerance", "statement": "all_approx holds exactly when the lists have the same length and every pair differs by at most the margin times the spacing of floats at one; approx with a precision holds exactly when the numbers differ by less than one unit of that decimal.", "quantifier": "all lists, numbers, margins and precisions", "why_tests_cant": "All real inputs, and lists of different lengths.", "anchors": ["helpers.py:approx", "utilities.py:approx", "utilities.py:all_approx"]}
{"id": "C54", "title": "Parameters come back from file names (helpers)", "statement": "split_params(clean_string(d)) returns the keys of d and, as text, the cleaned values; with de_string it returns the values themselves.", "quantifier": "every dictionary with keys without dashes and values without underscores", "why_tests_cant": "All key and value texts; the separators may occur in keys and values.", "anchors": ["helpers.py:clean_string", "helpers.py:split_params", "helpers.py:de_string"]}
{"id": "C55", "title": "Parameters come back from joined names (utilities)", "statement": "split_params(join_params(d)) returns the keys of d, with numbers, None, texts and lists of them as values.", "quantifier": "every dictionary of names to values and lists of values", "why_tests_cant": "All dictionaries; one- and two-element lists and negative numbers take separate branches.", "anchors": ["utilities.py:join_params", "utilities.py:split_params", "utilities.py:split_items"]}
{"id": "C56", "title": "params_to_args writes every parameter on the command line", "statement": "Read option by option the list made by params_to_args has one option for each parameter that is not False, in the order of the keys, without values for True and with the texts of the values otherwise.", "quantifier": "every dictionary of parameters", "why_tests_cant": "All dictionaries; numbers that compare equal to True or False.", "anchors": ["utilities.py:params_to_args"]}
{"id": "C57", "title": "split_number undoes join_number", "statement": "split_number(join_number(s, n, width)) returns s and n.", "quantifier": "every name, integer and width", "why_tests_cant": "All names, also those that contain dashes and digits, all numbers.", "anchors": ["utilities.py:join_number", "utilities.py:split_number"]}
{"id": "C58", "title": "Modifiers of feature names are added, split off and removed consistently", "statement": "split_modifiers takes off exactly the modifiers appended to a name, in order; remove_modifiers returns the distinct names; add_modifiers appends a modifier to every name that does not have it; match_sets counts additional features and answers -1 when some are missing.", "quantifier": "every list of names and modifiers", "why_tests_cant": "All names, also those that contain modifiers as substrings.", "anchors": ["utilities.py:add_modifiers", "utilities.py:split_modifiers", "utilities.py:remove_modifiers", "utilities.py:match_sets"]}
{"id": "C59", "title": "FileEnvironment keeps the requested headers and filters each column with its own parameters", "statement": "Headers are kept if requested as such or by the part before the first dash, in file order. Every kept column is processed by the filters requested for it, from left to right, and scaled with its own range.", "quantifier": "every list of file headers, requested headers, filters and ranges", "why_tests_cant": "All combinations of headers; closures capture variables, which shows only with several scaled headers.", "anchors": ["environments.py:FileEnvironment.set_headers", "environments.py:FileEnvironment.get_file_filters", "environments.py:FileEnvironment._filter_data_block"]}
{"id": "C60", "title": "ctw.CTW, which keeps its own history, is context tree weighting", "statement": "Any sequence of updates and predictions on ctw.CTW returns what model.CTW returns when given the symbols so far as history, or raises the same exception; likewise when a history kept outside is handed over with use_history. The probability of a sequence is the context-tree-weighting recursion; log_predict says what update returns, its predictions sum to one, and predicting changes nothing returned later. update_seq returns the sum over the sequence; log_predict_seq predicts in the growing context without learning.", "quantifier": "every depth, base class whose log_prob attribute adds up what update returns, alphabet, sequence of calls and weights", "why_tests_cant": "Two separate implementations with different bookkeeping (nodes that are themselves CTW objects and remember their probability; a history list in the object), equal over all call sequences; predictions create nodes.", "anchors": ["ctw.py:CTW", "ctw.py:ProbSeq", "model.py:CTW"]}
{"id": "C61", "title": "ctw.Averager is the mixture of its members, whatever they were trained on before", "statement": "SAD and Averager of ctw.py return what model.py's do. The Averager built from any models, also trained ones, gives to every sequence the mean of the probabilities its members give to it; log_predict says what update returns, the predictions sum to one, and map returns the first member that gave the sequence the highest probability.", "quantifier": "every class of members, non-empty list of members in any reachable state, alphabet, sequence and weights", "why_tests_cant": "The constructor overwrites log_prob in the members. This is harmless for classes which only add to log_prob, and changes the values returned by classes which compute it anew.", "anchors": ["ctw.py:Averager", "ctw.py:SAD", "ctw.py:PTW", "ctw.py:CTW"]}
{"id": "C62", "title": "ctw.FMN is a probability measure, stores the models it should and competes with re-using them", "statement": "ctw.FMN accepts up to 2**height symbols and refuses the next one. Its predictions sum to one, log_predict says at every time what update returns, and it stores one model per symbol, each a formerly stored one trained further, so that with LogStore log2(n+1)+1 models are kept, among them the initial one. Its loss is at most that of using any stored models on the segments of any binary partition, plus the logarithm of the number of stored models per segment and ln 2 for each node of the partition.", "quantifier": "every base class whose log_prob is a running total, store, height, sequence, partition, choice of models and iteration order of sets", "why_tests_cant": "All sequences, partitions and choices of models; the order in which a set of objects is iterated differs from run to run.", "anchors": ["ctw.py:FMN", "ctw.py:PTW", "ctw.py:Averager", "ctw.py:LogStore"]}
{"id": "C63", "title": "PTW.map returns the maximum a posteriori base model", "statement": "map returns the base model that is most probably the one in use, given the data: in the mixture over binary partitions no other beginning of the current segment has a higher posterior probability.", "quantifier": "every base class, sequence, length and minimal partition length, for model.PTW, model.PTWFixedLength and ctw.PTW", "why_tests_cant": "The scores are computed along the right spine of a tree that leaves out levels; whether they order the bases as the posterior does is a statement about all partitions.", "anchors": ["model.py:PTW.map", "model.py:PTWFixedLength", "ctw.py:PTW.map"]}
{"id": "C64", "title": "Tracking a coin whose bias changes", "statement": "On bits (weight one) PTW over KTBinary has log loss at most that of any coin whose bias theta(t) in [0,1] changes only at k times (multiples of the smallest segment length), plus (1 + k d)(ln n / 2 + ln 2) nats for the biases, plus (1 + 2 k d) ln 2 for the change times, plus at most (d - 1) ln(3/2) for not knowing n, where n is the number of bits and d = log2(n / smallest segment length) rounded up. FMN over KTBinary with LogStore has the same guarantee with ln(number of models kept) more per segment.", "quantifier": "every bit sequence, every bias function and set of change times giving the sequence positive probability, every smallest segment length", "why_tests_cant": "A worst-case guarantee over all sequences and all biases, which is the reason to use these predictors on non-stationary data.", "anchors": ["model.py:PTW", "model.py:FMN", "model.py:KTBinary", "model.py:LogStore"]}
{"id": "C65", "title": "Competing with every tree source", "statement": "On bits (weight one) CTW over KTBinary has log loss at most that of any context tree of depth at most D with a coin at every leaf, plus one bit (ln 2) for each node of the tree above depth D, plus for every leaf with n > 0 visits (ln n) / 2 + ln 2.", "quantifier": "every bit sequence with any histories over the context alphabet, every tree, every choice of biases giving the sequence positive probability", "why_tests_cant": "A worst-case guarantee over all trees, biases and sequences.", "anchors": ["model.py:CTW", "model.py:KTBinary"]}
{"id": "C66", "title": "A Structure is read back from its directory string", "statement": "get_dir_string of an instance, read by params_from_dir_string under any base directory, gives the base directory and the text of the value of every field shown that is set, and nothing else. from_dir_string rebuilds an instance with the same values (dictionaries up to order) and the same directory string, so two instances with the same directory string have the same values. This holds for classes and values whose texts can be told apart: one field at the end without name at most, the positional and nameless fields set, no underscore in the values at the end, no dash in named positional ones.", "quantifier": "every such class (any number of positional, named, nameless and transient fields of any type but Struct), instance, base directory and behaviour of literal_eval outside the literals concerned", "why_tests_cant": "All classes, values and directories; path normalisation, splitting at dashes and underscores, and evaluation interact.", "anchors": ["datasets.py:Structure.get_dir_string", "datasets.py:Structure.params_from_dir_string", "datasets.py:Structure.from_dir_string", "datasets.py:Parsable"]}
{"id": "C67", "title": "Every constructed Structure can be found again by its directory string", "statement": "Whatever the class and the values the constructor accepts, from_dir_string of the directory string returns an equal instance, and different instances have different directory strings.", "quantifier": "every class of fields and every instance", "why_tests_cant": "Which classes and values break the round trip shows only by searching all combinations of flags and texts.", "anchors": ["datasets.py:Structure", "datasets.py:Boolean", "datasets.py:Listable", "experiment.py:CoinEnv"]}
{"id": "C68", "title": "The constructor of a Structure checks and converts its fields", "statement": "Whenever construction succeeds, every field holds a value of its declared type and among its choices (as many as nargs says) if one was given or a default declared, and is optional and unset otherwise; valid values are kept as they are; missing required values and values outside the choices are errors; constructing from the attributes of an instance gives the same attributes; inherited names take the given values, and no other attributes appear.", "quantifier": "every class of fields (any types, defaults, choices and nargs), all keywords and inherited names", "why_tests_cant": "All keyword dictionaries and field declarations; types, nargs, choices and defaults interact.", "anchors": ["datasets.py:Structure.__init__", "datasets.py:Parsable.set_self", "datasets.py:Parsable.convert_val", "datasets.py:Structure.set_inherited"]}
{"id": "C69", "title": "learners.Averager is a Bayesian mixture with conditional predictions", "statement": "log_prob of the Averager of learners.py is the log of the mean of the probabilities its (distinct) members give to the sequence; map returns the first member with the highest one; log_predict is the log probability of the symbol given the sequence, so that predictions sum to one; reset makes the object as new.", "quantifier": "every class of members, all members in any state, all sequences over the alphabet", "why_tests_cant": "All members and sequences; the tests only use fresh KT members and never predict after an update.", "anchors": ["learners.py:Averager"]}
{"id": "C70", "title": "The streams of pomdp.py are uninterrupted runs of their worlds", "statement": "Hallway and Room yield action, observation, action, observation, ...: each action is true with probability p_forward, independent of the state, and each observation is the one the actions so far lead to (the direction in the hallway; standing at the wall and looking at it in the room). Switcher yields whole pairs of one mode at a time, and the pairs of each mode are an uninterrupted run of it. In the hallway the last two symbols decide the next observation.", "quantifier": "every random generator, every probability, every state of the objects, every stream length, every tuple of modes (also with repetitions)", "why_tests_cant": "Infinite streams of generators that share mutable objects with other generators; no test covers this module.", "anchors": ["pomdp.py:Hallway", "pomdp.py:Room", "pomdp.py:Switcher"]}
{"id": "C71", "title": "The models of the POMDP notebook learn the hallway", "statement": "Factored((Dumb(), CTW_KT(D))) with D >= 2, updated with n action-observation pairs of a Hallway, has a total loss on the observations of at most 1 + ln(n+1) + 4 (ln n / 2 + ln 2) + 7 ln 2 nats; with FMN over CTW_KT(D) it is at most ln 2 + (d-1) ln(3/2) more, where d = log2(n / smallest segment length) rounded up.", "quantifier": "every random generator, p_forward, number of pairs and depth from two, every smallest segment length", "why_tests_cant": "A guarantee for all action sequences and lengths, across pomdp.py and four classes of model.py.", "anchors": ["pomdp.py:Hallway", "model.py:Factored", "model.py:CTW_KT", "model.py:FMN"]}
{"id": "C72", "title": "Rounding errors do not spoil a context tree", "statement": "If every float operation has relative error at most u (about 2^-52), math.exp of a non-positive and math.log errors of that order, CTW_KT(D).update_seq on n bits raises nothing and its value differs from that of exact arithmetic by at most n u (D+2) (4 n ln(2n+2) + 30), as long as this is below one; later predictions are as close and those of the two symbols sum to one as closely; log_predict returns the very float that the update then returns.", "quantifier": "every arithmetic of the given accuracy, every depth, all bit sequences and histories", "why_tests_cant": "Errors accumulate over all nodes and steps; a test sees one sequence, and its expected value is itself rounded.", "anchors": ["model.py:CTW_KT", "model.py:CTW_KT_Node", "model.py:logsumexp2", "model.py:Model.update_seq"]}
{"id": "C73", "title": "Rounding errors do not spoil partition tree weighting", "statement": "With float operations of relative error at most u, PTW over KTBinary or CTW_KT (or any base model whose computed values stay within eps of the exact ones) raises nothing on n bits, and the value of update_seq differs from that of exact arithmetic by at most 23 n (u (12 n (L+c+2) + 44) + eps), as long as this is below one; L bounds the surprise per step.", "quantifier": "every arithmetic of the given accuracy, every smallest partition length, every base that follows its exact version, all bit sequences and histories", "why_tests_cant": "The errors travel through promotions, height corrections and the running adjustment; a test sees one sequence, and its expected value is itself rounded.", "anchors": ["model.py:PTW", "model.py:PTW_Node", "model.py:KTBinary", "model.py:CTW_KT", "model.py:logsumexp2"]}
{"id": "C74", "title": "Logs written by save_log_data come back through get_log_data", "statement": "get_log_data of a file written by save_log_data returns, for any selection of the columns, exactly these columns in that order, with the saved values as numbers if all of them are numbers and as texts otherwise; the kept comments are the path and the notes; get_header_list returns the sorted column names, num_data_lines the number of rows; no other file changes. get_snippets and simplify_logs write the selected part of a log. Saving either succeeds or leaves the old file. This holds for any data, notes and paths.", "quantifier": "all data dictionaries, notes, paths, selections of columns, file systems and renderings of values as text", "why_tests_cant": "All texts and dictionaries: word splitting, comments, cleaned names, blank lines and line ends interact; the tests read files that are not there.", "anchors": ["utilities.py:save_log_data", "utilities.py:get_log_data", "utilities.py:get_header_list", "utilities.py:get_header_indices", "utilities.py:num_data_lines", "utilities.py:read_floats", "utilities.py:skip_comments", "utilities.py:get_formatted_data", "utilities.py:get_snippets", "utilities.py:simplify_logs"]}
{"id": "C75", "title": "Logs written by LogWriter come back through LogReader, and safe mode keeps every file", "statement": "Comments, headers and rows written with LogWriter, in either order of construction, come back from a LogReader: get_headers returns the headers and keeps the comments, and looping over the reader gives the rows, each labelled by the headers; check_headers returns the headers, or those asked for by name or by the part before the first dash, in order. The file can also be read by get_log_data. In safe mode nothing that is done with a writer changes any existing file; in any mode no other file changes, an open log only grows and a closed one does not change. Any path can be used, write_log writes the data, and a data frame written with write_dataframe can be read back.", "quantifier": "all file systems, paths, base directories, modes, headers, comments, rows and sequences of operations on the writer", "why_tests_cant": "All sequences of operations and all texts; the class has no tests, and existing files are only at risk in combinations of mode, path and state.", "anchors": ["logfiles.py:LogWriter", "logfiles.py:LogReader", "logfiles.py:peek_char", "logfiles.py:pathify"]}
{"id": "C76", "title": "Jobs are submitted for every combination of options, and their results are found in the logs", "statement": "JobSet.run submits one job for every combination of the options, in order; the script of each runs z.py with the model, depth and input file of the job, makes a missing input file from its parts first, and asks for a log with the name of the job; afterwards the scripts of all jobs are in the log directory under the number that the queue gave them, and no other file has changed. The log directory is log_name. The name of a log tells protocol, model and depth of the job, its last lines the figures that z.py printed, or why it was killed; get_all_logs returns one row per log with all of this.", "quantifier": "all job sets, options and combinations, file systems, answers of the queue, log texts and directory listings", "why_tests_cant": "All combinations of options and all texts of logs; running it needs a cluster, and the module has no tests.", "anchors": ["jobs.py:JobSet.run", "jobs.py:JobSet.submit_job", "jobs.py:JobSet.pbs_template", "jobs.py:pull_stats_from_file", "jobs.py:pull_params_from_name", "jobs.py:get_all_logs", "z.py"]}
{"id": "C77", "title": "z.py compresses a file without loss", "statement": "z.py compress INFILE OUTFILE writes the length of the input in four bytes and the arithmetic code of its bits under the chosen model, changes no other file, shows the progress, and prints the size, ratio and bits per byte of the two files; no two inputs lead to the same output with the same model, and the output has at most 41 bits more than the log loss of the model's quantised probabilities. This holds for every model that can be chosen, among them the default CTW, and for every input, also an empty one, one of more than 4 GiB, and OUTFILE equal to INFILE. z.py uncompress restores the input.", "quantifier": "all file systems, inputs, model names, depths, byte orders, running times", "why_tests_cant": "All inputs and models: losslessness is about pairs of files, and rounding of the coder's interval depends on the whole input.", "anchors": ["z.py", "ac.py:compress_bytes", "ac.py:BinaryArithmeticEncoder", "model.py:KT", "model.py:PTW", "model.py:FMN"]}
{"id": "C78", "title": "A command line sets the fields it names", "statement": "For every Structure class, from_args of a command line gives each field named on it the value written there, also when its option is abbreviated, joined to its value by an equals sign, or among options of other classes, in any order; fields that are not named have their default, or are unset as by the constructor. The program ends with a message when a required field is missing, when both options of a Boolean or Listable field are given, and when a value does not fit the field.", "quantifier": "all classes, command lines (options with any number of words, abbreviations, options of others, in any order) and conversions of texts", "why_tests_cant": "All sequences of options of all classes: abbreviations, groups, words that look like options and defaults interact in argparse and in the constructor.", "anchors": ["datasets.py:Structure.from_args", "datasets.py:Structure.get_parser", "datasets.py:Parsable.add_parser_arg", "datasets.py:Boolean.add_parser_arg", "datasets.py:Listable.add_parser_arg", "datasets.py:Keyed.add_parser_arg"]}
{"id": "C79", "title": "A Structure is rebuilt from its own command line", "statement": "from_string of get_arg_string of an instance, and from_wildcard of it, make an instance with equal fields (dictionaries up to order); from_wildcard of a directory string makes what from_dir_string makes.", "quantifier": "all classes, all instances with all their fields set, all values of the fields", "why_tests_cant": "All values: spaces, dashes, signs and exponents in the text of a value interact with splitting at spaces and with what argparse takes for an option.", "anchors": ["datasets.py:Structure.get_arg_string", "datasets.py:Structure.from_string", "datasets.py:Structure.from_wildcard", "datasets.py:Parsable.get_arg_string", "datasets.py:Boolean.get_arg_string"]}
{"id": "C80", "title": "A Structure with other Structures in it is rebuilt from its directory string", "statement": "For a class with Struct fields, nested to any depth, from_dir_string of get_dir_string of an instance, put under any directory, makes an instance with the same fields on all levels, with that directory as base_dir, and with the same directory string.", "quantifier": "all classes with Structs of any depth, all instances, all directories", "why_tests_cant": "All nestings and values: the levels share one path and one set of names, and each takes its directories from the end; the tests declare their Structs so that they cannot be read.", "anchors": ["datasets.py:Struct", "datasets.py:Structure.params_from_dir_string", "datasets.py:Structure.get_dir_string", "datasets.py:Structure.from_dir_string", "datasets.py:Parsable.set_self"]}
{"id": "C81", "title": "Structures are selected by their values, and rebuilt from their records", "statement": "matches(drop_vals, assert_vals) is true exactly if the instance has one of the given values, or of their texts, for every key of assert_vals and for no key of drop_vals; matches_param does so for one field. get_flat_record and items have one entry for every field, also for the fields of inner Structures and for fields without a value, and the constructor makes from them an instance with the same fields in the same directory.", "quantifier": "all classes, instances, selections and values", "why_tests_cant": "All combinations of field types, flags, values and selections; values and texts are compared in the same lists.", "anchors": ["datasets.py:Structure.matches", "datasets.py:Structure.matches_param", "datasets.py:Structure.get_flat_record", "datasets.py:Structure.items", "datasets.py:Structure.get_parameter"]}
{"id": "C82", "title": "A Structure keeps its data in its own log", "statement": "save_data writes the data to the file log_file in the directory of the instance, never to a file that is already there and to no other file; two instances with different fields never share a log; load_data and data give what was saved.", "quantifier": "all classes with a log, instances, data and contents of the file system", "why_tests_cant": "All instances and histories of files: whether a log is overwritten, shared or mistaken for another depends on directory strings of all values.", "anchors": ["datasets.py:Structure.save_data", "datasets.py:Structure.load_data", "datasets.py:Structure.data", "datasets.py:Structure.log_exists", "datasets.py:Structure.log_file_path", "logfiles.py:LogReader.read_log"]}
{"id": "C83", "title": "An Experiment places its parts in its directory and keeps their models", "statement": "Entering an Experiment gives the Structures inside it, on all levels, directories one inside the other and below its own, and changes no field; run calls the entered instance and gives its result; on leaving, the model of every part is saved in the directory of that part, never over a file that is already there and to no other file; load_model gives the model in memory, or else the saved one, or else that of a run; Experiments with different fields never share directories or models of their parts.", "quantifier": "all classes of Experiments with parts of any depth, instances, models, results and contents of the file system", "why_tests_cant": "All nestings, values and histories of files: which file a model goes to and comes from depends on the directory strings of all levels; the tests have one Experiment with one part.", "anchors": ["datasets.py:Experiment.__enter__", "datasets.py:Experiment.__exit__", "datasets.py:Experiment.run", "datasets.py:Structure.load_model", "datasets.py:Structure.save_model", "datasets.py:Structure.model_exists", "datasets.py:Structure.model_file_path", "datasets.py:Structure.set_inherited"]}
{"id": "C84", "title": "Parameter sets are grouped by their values", "statement": "group_by_keys and group_by_key put every parameter set into exactly one group, keep the order of the sets in a group, and put two sets into one group exactly if they have the same values for the keys; check_param_matches is true exactly if a set has all required keys with the values set for them and other values for the restricted keys.", "quantifier": "all lists of parameter sets, keys, values and settings", "why_tests_cant": "All values: groups are found by joined texts, and different values may have one text.", "anchors": ["utilities.py:group_by_keys", "utilities.py:group_by_key", "utilities.py:check_param_matches", "utilities.py:join_params"]}
{"id": "C85", "title": "Attributes are set from valid parameters, and parameters are checked as required", "statement": "set_attributes sets exactly the parameters it is to set (all, or the valid ones), succeeds exactly if all valid parameters have a value and those checked are not None, and otherwise raises ParameterException and leaves the object as it was; validate_params is true exactly if all required names are there and, with validate_values, have a value, or one of the values required of them.", "quantifier": "all objects, parameters, lists of valid parameters, requirements and values", "why_tests_cant": "All combinations of four options with any parameters; requirements may be names, values or lists of values, told apart by the exceptions that they raise.", "anchors": ["utilities.py:set_attributes", "utilities.py:validate_params"]}
{"id": "C86", "title": "make_dirs makes all directories of a path", "statement": "make_dirs(path) makes every directory on the way that is missing and gives the path back, or gives False if it cannot; what was there before stays, and nothing else is made.", "quantifier": "all paths, from the root or relative, all file systems and permissions", "why_tests_cant": "All depths, missing parts and permissions: it calls itself with shorter and with the same path, and what it gives back decides whether it goes on.", "anchors": ["utilities.py:make_dirs"]}
{"id": "C87", "title": "The directories in a path and its extension are found as written", "statement": "get_all_dirs(path) is the list of the names in the path, whatever slashes and dots are between them; with base_dir it is the list of the names below that directory, or None if the path is not below it. split_ext gives two parts that make up the path, the second its extension together with that of compression.", "quantifier": "all paths and base directories", "why_tests_cant": "All strings: slashes, dots, names inside other names and directories named twice.", "anchors": ["utilities.py:get_all_dirs", "utilities.py:split_ext"]}
{"id": "C88", "title": "The headers of an array are different and in order", "statement": "get_array_headers(name, n) gives n different headers; sorted as strings they are in the order of their indices, whatever n; arrays with different names have no header in common.", "quantifier": "all names and lengths", "why_tests_cant": "All lengths: the order depends on the number of digits of the length and of every index.", "anchors": ["utilities.py:get_array_headers", "utilities.py:join_items"]}
{"id": "C89", "title": "The texts that describe a PTW name its completed blocks and its models", "statement": "After n updates, get_child_string names the blocks, of decreasing sizes that are powers of two, that make up all n steps; get_model_string names one model for each of these blocks, with the step it started at and the last step; repr is made of the two.", "quantifier": "all base models, alphabets, depths and sequences that fit the depth", "why_tests_cant": "All numbers of steps: the blocks are the binary digits of the number of steps, found from the weights that are stored.", "anchors": ["learners.py:PTW.to_string", "learners.py:PTW.get_child_string", "learners.py:PTW.get_model_string", "learners.py:PTW.__repr__"]}
{"id": "C90", "title": "Files are compressed and uncompressed without loss", "statement": "zipfile then unzip gives back the file as it was; neither changes any other file; unzip removes the archive only if the file it has made holds all of it, and what it gives back is a file with the contents of the archive; file_exists gives a file that is there, uncompressed if it is asked to, and none if there is none.", "quantifier": "all files, paths, contents, archives (whole or broken) and encodings", "why_tests_cant": "All contents and histories: archives that cannot be read to the end, text that cannot be decoded, files that are already there.", "anchors": ["utilities.py:unzip", "utilities.py:zipfile", "utilities.py:file_exists", "utilities.py:is_zip"]}
{"id": "C91", "title": "get_filepaths finds all files of a name in a directory tree", "statement": "get_filepaths(base_dir, filename) gives the path of each file of that name in the directory and all directories inside it, once, and with partial=True of each file whose name has the given name in it; files to ignore are left out.", "quantifier": "all directory trees of any depth, base directories, names and lists of files to ignore", "why_tests_cant": "All trees: the list depends on every directory, and paths are joined and compared as texts.", "anchors": ["logfiles.py:get_filepaths"]}
{"id": "C92", "title": "get_best_file_match finds the file with the required features and the fewest others", "statement": "get_best_file_match gives the file with exactly the required features if there is one, compressed or not, otherwise the text file with all of them and the fewest others, otherwise the standard name; get_all_text_files gives the files whose extension has txt in it.", "quantifier": "all features, directories and names of files", "why_tests_cant": "All listings: the order of features, numbers in names, repeated features and the order in which the system lists files.", "anchors": ["utilities.py:get_best_file_match", "utilities.py:get_all_text_files", "utilities.py:match_items", "utilities.py:match_sets"]}
{"id": "C93", "title": "Numbers at the end of names are found, and files are checked for the headers they must have", "statement": "de_number(name) splits a name into the text and the number at its end; get_headers(file, subset) gives columns of the file only, for each header asked for that column itself if it is there, otherwise its name without the number at its end or the array element of that number, and all columns if no header is given; file_complete is true only of files that are there with all the headers required and at least as many lines as required.", "quantifier": "all names, columns, headers and files", "why_tests_cant": "All names: numbers with a dash, names that are a number, columns that start alike.", "anchors": ["helpers.py:de_number", "logfiles.py:get_headers", "logfiles.py:file_complete", "logfiles.py:file_length"]}
{"id": "C94", "title": "Copies of models are deep", "statement": "Any program that makes KT, KTBinary, SAD, Dumb, Averager and Factored models, puts models into others (and does not use them otherwise from then on), copies, deletes, updates and queries them, gets the values and exceptions that it would get if every variable held a value of its own; every model has a copy, which does what the original would do.", "quantifier": "all programs of any length, with any number of models nested to any depth", "why_tests_cant": "All interleavings of calls on originals and copies: a shared dictionary or list shows only in the later calls of the other object.", "anchors": ["model.py:KT.copy", "model.py:KTBinary.copy", "model.py:SAD.copy", "model.py:Averager.copy", "model.py:Factored.copy", "model.py:Model.copy"]}
{"id": "C95", "title": "FMN keeps its models apart", "statement": "The models in the store of an FMN, in the nodes of its tree and in their Averagers are never the same object: updates and predictions of an FMN return what they would if each of these were a value of its own, with LogStore and LogStoreUniform, and a model that is once in the store never changes again.", "quantifier": "all base models, min_heights and sequences of updates and predictions of any length", "why_tests_cant": "All histories: a missing copy changes a stored model only after later updates, and shows only once the model is used in a new node.", "anchors": ["model.py:FMN.__init__", "model.py:FMN.update", "model.py:FMN.model_factory", "model.py:PTW.Node", "model.py:LogStore", "model.py:LogStoreUniform"]}
{"id": "C96", "title": "Combinations of PTW, FMN and CTW track sources that change", "statement": "PTW and FMN over a model that learns each source of a class track a source that moves within the class, paying the price of learning and O(log n) more for each change; so PTW over CTW and FMN over CTW track context trees that change, and CTW over PTW a context tree each of whose leaves has a bias that changes at its own times. Updates and predictions over the binary alphabet are probability distributions.", "quantifier": "all base models with the loss bound, depths, context alphabets, min_heights, sources, change times and sequences of any length", "why_tests_cant": "A bound against every source of an infinite class, for every sequence, through two nested recursive mixtures.", "anchors": ["model.py:PTW", "model.py:FMN", "model.py:CTW", "model.py:CTW_KT"]}
{"id": "C97", "title": "Factorize sends each symbol to the model of its position", "statement": "A class made by Factorize(Base, n) sends the symbol at position t to factor t mod n with all symbols before it as history: each factor does what it would do alone with these calls; over CTW the probability of a sequence is the product over the factors, update returns what log_predict says, the predictions are a distribution, and update_seq and log_predict_seq are the sums of what the calls for the single symbols return, the latter leaving the object as it was.", "quantifier": "all base classes, numbers of factors, depths and sequences of calls of any length", "why_tests_cant": "All interleavings of updates and predictions: which factor sees which history depends on all calls before.", "anchors": ["ctw.py:Factorize", "ctw.py:ProbSeq", "ctw.py:CTW"]}
{"id": "C98", "title": "The numerical helpers compute what they say", "statement": "mscb(t) of utilities.py is the highest bit that changes when t is incremented; log_sum_exp of utilities.py and logsumexp of ctw.py are the logarithm of the sum of the exponentials; argmax gives an index of a largest value and can give each of them; bin_data gives the means of consecutive, nearly equal parts of the data; get_bin_index gives the bin of a value.", "quantifier": "all numbers, lists of values, random draws, data and numbers of bins, for every rounding of the logarithm to nearest and of the places of the cuts", "why_tests_cant": "All arguments: the rounding of the logarithm is wrong only from 2^48 - 1 on, and the cuts depend on rounding.", "anchors": ["utilities.py:mscb", "utilities.py:log_sum_exp", "utilities.py:argmax", "utilities.py:bin_data", "utilities.py:get_bin_index", "ctw.py:logsumexp"]}
{"id": "C99", "title": "KT and SAD pay for the symbols that occur, not for the alphabet", "statement": "Against every memoryless source over an alphabet of d symbols, on a sequence of n symbols of which m are different, the loss of KT is larger by at most 1/2 ln n + m ((1/2 - 1/d) ln n + ln d) + 1, and the loss of SAD by at most m (ln d + 1/2 ln n + 3/2 ln(1 + ln n) + 4).", "quantifier": "all alphabets, sources and sequences of any length", "why_tests_cant": "A bound for every source of an infinite class and every sequence.", "anchors": ["model.py:KT", "model.py:SAD"]}
{"id": "C100", "title": "The compressed size is bounded by the model's loss, whatever happens to the coder's interval", "statement": "With N-bit arithmetic and any k with k < N <= k(k+1), the code of a message, without the two last bits, is at most (N-k)/(N-2k) times the base-2 log loss of the model plus 2^-k/ln 2 bits per symbol and k bits; so for the files of z.py, and with KT against every coin. (It is not within a constant of the loss.)", "quantifier": "all models whose probabilities are at most one, all messages and files, all precisions", "why_tests_cant": "The bound is over all models and messages; the coder may keep a very short interval around the midpoint for any number of symbols.", "anchors": ["ac.py:compress", "ac.py:BinaryArithmeticEncoder", "z.py"]}
{"id": "C101", "title": "Rounding errors do not spoil averages of models", "statement": "Computed with floating-point numbers, logsumexp and an Averager raise nothing and return values close to those of exact arithmetic: over n updates of d models the value for the whole sequence is off by at most n times the error of the members plus a small multiple of the unit of rounding times n times the largest loss; map chooses a model that is best up to such an error, and the best one if it leads by more. So for averages of CTW_KT predictors of any depths, alone or inside PTW.", "quantifier": "all arithmetics of a given accuracy, all base models that follow their exact versions, all numbers of models and sequences of any length", "why_tests_cant": "All sequences and all roundings: errors add up over the updates, and the choice of a maximum is not continuous.", "anchors": ["model.py:logsumexp", "model.py:Averager", "model.py:CTW_KT", "model.py:PTW"]}
{"id": "C102", "title": "The models of learners.py keep the account of their losses, and predict from a distribution", "statement": "total_loss of a KT or a PTW is minus the sum of the values returned by update, and minus the log probability of the sequence under additive smoothing or under the recursion over segments; predict gives the ratio of the probabilities with and without the symbol, positive and summing to one over the alphabet. reset wipes the model, so that it answers as a new one; from_sequence makes a model and updates it with the sequence; SAD can be used as a model.", "quantifier": "all alphabets, base models and depths, all sequences of up to 2^depth symbols, all states before reset", "why_tests_cant": "All sequences and all base models; a model that keeps parts of its past after reset answers plausibly.", "anchors": ["learners.py:Model", "learners.py:KT", "learners.py:PTW", "learners.py:SAD"]}
{"id": "C103", "title": "Decompression inverts compression when floats round", "statement": "With probabilities computed in floating point, decompress returns the message that was compressed: encoder and decoder split their intervals at the same places, although the one computes the probability of 0 from that of the symbol coded and the other asks for it. Whatever the arithmetic, what is decoded begins with the part of the message for which the splits are the same.", "quantifier": "all models and arithmetics, all messages and precisions", "why_tests_cant": "A difference in the last digit of a probability moves a split by one unit only when the product lies at an integer, and shows only when the code value lies there.", "anchors": ["ac.py:BinaryArithmeticEncoder", "ac.py:BinaryArithmeticDecoder", "ac.py:compress", "ac.py:decompress"]}
{"id": "C104", "title": "Memory and work grow with the logarithm of the length of the data", "statement": "After n symbols a PTW with minimum partition length 2^m refers to one base model more than (n-1)/2^m has binary digits 1, so to at most 2 + log2((n-1)/2^m), and one call of update updates each of them once; the same holds for PTWFixedLength and for the PTW of ctw.py. With k = log2(1 + n/2^m), FMN refers to at most (k+3)(k+1) base models with the default store and (k+3)(k+2) with the uniform one, counting the store and all averages in its tree. A CTW, and a CTW_KT, has one node for each different context of at most depth symbols that update or log_predict has met, so never more than the full tree over the symbols in use.", "quantifier": "All base models, all data, all minimum lengths, both stores, all depths of at least one, all sequences of calls.", "why_tests_cant": "Trees that failed to drop completed partitions, or dropped them late, would return the same probabilities in short tests and exhaust memory only on long data.", "anchors": ["model.py:PTW.update", "model.py:PTW.Node.update", "model.py:FMN.update", "model.py:LogStore", "model.py:LogStoreUniform", "model.py:CTW.update", "model.py:CTW.log_predict", "model.py:CTW_KT.update", "model.py:CTW_KT.log_predict", "ctw.py:PTW.update"]}
{"id": "C105", "title": "Rounding errors do not spoil FMN", "statement": "With floats instead of real numbers FMN completes, and what update_seq returns is at least the log-probability of predicting each segment of any partition of time with any of the models retained when the segment starts (as computed with rounding), less the logarithms of the numbers of models retained and the cost of the partition, up to a slack of the number of symbols times a small multiple of the rounding error. The models retained are those the program with rounding chooses, which may differ from those chosen with exact arithmetic. In particular FMN over KTBinary with LogStore keeps, up to such a slack, its guarantee against a coin whose bias changes a few times.", "quantifier": "all arithmetics with a bounded relative error, base models which follow an exact one (in particular KTBinary and CTW_KT of any depth), both stores, all data, minimum lengths, partitions and choices of retained models", "why_tests_cant": "Which model is retained can flip by the last digit, so results with and without rounding cannot be compared state by state; the guarantee quantifies over all partitions and choices.", "anchors": ["model.py:FMN", "model.py:PTW.map", "model.py:Averager", "model.py:LogStore", "model.py:LogStoreUniform"]}
{"id": "C106", "title": "Rounding errors do not spoil KT and CTW", "statement": "With floats instead of real numbers, KT over any alphabet and CTW of any depth over KT, or over any base model which itself follows an exact one, complete on all data over the alphabet, and both what update_seq returns and each value log_predict returns differ from the exact ones by at most a bound proportional to the rounding error: per symbol, the error of the base model plus (depth + 2) times that of an operation. CTW so computed may again be the base of PTW and of FMN, with the guarantees these have. Whatever the rounding, update returns the very number log_predict returns.", "quantifier": "all arithmetics with a bounded relative error (tiny quotients may underflow), alphabets, depths of at least one, base models which follow an exact one, data, histories", "why_tests_cant": "Errors accumulate in the log-probabilities of every node of a tree that grows with the data; a test compares a few numbers on one machine's arithmetic.", "anchors": ["model.py:KT", "model.py:CTW.update", "model.py:CTW.log_predict", "model.py:CTW.Node", "model.py:Model.update_seq"]}
{"id": "C107", "title": "Rounding errors do not spoil nested models", "statement": "With floats instead of real numbers, models nested in one another to any depth (KT, KTBinary or CTW_KT at the bottom; CTW and PTW above, in any order, for instance CTW over PTW) complete on all data over the alphabet; each value update returns, and the total update_seq returns, differ from the exact ones by at most a bound proportional to the rounding error, which is computed layer by layer. So does what PTW predicts over a base model which predicts what its update returns. The exact value of each update lies within the range of values of the estimator at the bottom.", "quantifier": "all arithmetics with a bounded relative error, nestings, depths, minimum lengths, alphabets, data and histories, as far as the numbers neither overflow nor lose all digits", "why_tests_cant": "The number of ways to nest the models is unlimited, and errors of one layer are amplified by the next.", "anchors": ["model.py:KT", "model.py:KTBinary", "model.py:CTW_KT", "model.py:CTW", "model.py:PTW", "model.py:Model.update_seq", "z.py"]}
{"id": "C108", "title": "Parameters are found again in paths, command lines and dictionaries", "statement": "get_dir_params of a path whose last directory was named by join_params returns the directory above, sets in the dictionary given the parameters that survive join_params, and leaves all others as they were. The string of params_to_arg_string splits into the arguments of params_to_args. confirm_membership tells whether every required element is present. dicts_exact_match tells whether two dictionaries have identical items. The vector get_unitizer makes of a label has 1 in its place and 0 elsewhere, different labels have different vectors, and other labels are refused.", "quantifier": "all directories with plain components, parameters, dictionaries, collections, numbers of classes and labels", "why_tests_cant": "The texts of the parameters, and what is in the dictionaries beforehand, vary without limit; comparisons that hold only one way agree with the right ones on most examples.", "anchors": ["utilities.py:get_dir_params", "utilities.py:params_to_arg_string", "helpers.py:confirm_membership", "helpers.py:dicts_exact_match", "features.py:get_unitizer"]}
{"id": "C109", "title": "The compressed size stays bounded when floats round", "statement": "With floats instead of real numbers, the arithmetic coder completes on every sequence of bits, for every model whose probabilities stay away from 0 and 1 by more than four times the rounding error, and the length of what it writes is bounded by the loss of the model plus a loss per symbol for splitting the interval, of which the rounding of the product is a vanishing part. If the model follows an exact one, the loss is that of the exact model. In particular with the 32 bits of z.py: KT compresses nearly as well as any fixed coin, PTW over KTBinary nearly as well as any coins which change a few times, and FMN over KTBinary nearly as well as re-using the models it retains on the segments of any partition of time, hence nearly as well as coins which change, although log-probabilities, their exponentials and the products are all rounded.", "quantifier": "all arithmetics with a bounded relative error, widths of the interval, models, sequences of bits, coins and times of change", "why_tests_cant": "How the interval is split depends on the rounding in every step, so codes differ between machines; the bound has to hold for all of them and all data.", "anchors": ["ac.py:BinaryArithmeticEncoder", "ac.py:compress", "z.py", "model.py:KT", "model.py:PTW", "model.py:KTBinary", "model.py:FMN"]}
{"id": "C110", "title": "Models computed with rounding track sources that change", "statement": "With floats instead of real numbers, a model which follows an exact one learns every source the exact one learns, and PTW and FMN over it track a source that moves within that class a few times, at the price of learning it once per segment plus a number of bits proportional to the number of changes and the logarithm of the number of symbols, plus the rounding errors, which are a small multiple of the rounding error of one operation times a polynomial in the number of symbols. In particular CTW_KT of any depth learns every tree source, at the price of its leaves and its shape, and PTW and FMN over CTW_KT track tree sources whose tree and biases change.", "quantifier": "all arithmetics with a bounded relative error, base models which follow an exact one that learns a class of sources (in particular CTW_KT and tree sources), data, histories, minimum lengths, sources and times of change at multiples of the block length", "why_tests_cant": "The guarantee compares with every source of the class and every choice of times, and rounding decides which models FMN retains; a test sees one machine and one source.", "anchors": ["model.py:CTW_KT", "model.py:CTW", "model.py:PTW", "model.py:FMN", "model.py:LogStore", "model.py:Model.update_seq", "z.py"]}
{"id": "C111", "title": "CTW over any learner, KT or SAD over any alphabet, learns trees, also trees that change", "statement": "Over any alphabet, KT and SAD learn every distribution, and CTW of any depth over a model which learns a class of sources learns every tree with sources of that class at its leaves, at the price of learning one per leaf plus the bits of the tree's shape. So CTW over KT or SAD learns trees over any alphabet. PTW and FMN over such a CTW complete on all data over the alphabet and track trees that change a few times, at that price once per segment plus a number of bits proportional to the number of changes and the logarithm of the number of symbols. KT, and FMN over CTW over KT, do so with floats instead of real numbers, up to an error proportional to the rounding error.", "quantifier": "all alphabets, base models that learn a class of sources, tree shapes, distributions at the leaves, depths, data, minimum lengths and times of change at multiples of the block length; for KT also all arithmetics with a bounded relative error", "why_tests_cant": "The bound compares with every tree, every distribution at its leaves and every choice of times; no set of examples covers an infinite class of sources.", "anchors": ["model.py:KT", "model.py:SAD", "model.py:CTW", "model.py:PTW", "model.py:FMN", "model.py:LogStore", "model.py:Model.update_seq"]}
{"id": "C112", "title": "The models of ctw.py and learners.py learn, and track sources that change", "statement": "ctw.CTW, which keeps its own history, over any class of base models that learns a class of sources learns every tree of such sources, also from several sequences with reset_history after each. ctw.PTW and learners.PTW of height H over such a base model track a source that changes at any times within their span of 2^H symbols, at the price of learning it once per segment plus O(H) bits per change, with no restriction on where the changes fall; ctw.FMN does so too, paying also for the number of models it retains, in whatever order its set of models is iterated. All this holds with the KT of the same file over any alphabet; CTW and FMN of ctw.py also with SAD.", "quantifier": "all alphabets, base models that learn a class of sources, trees, distributions, sequences of at most 2^H symbols, times of change and orders of iterating a set", "why_tests_cant": "The bound compares with an infinite class of sources and all choices of times; the order in which a set is iterated differs between runs.", "anchors": ["ctw.py:CTW", "ctw.py:PTW", "ctw.py:FMN", "ctw.py:KT", "ctw.py:SAD", "learners.py:PTW", "learners.py:KT"]}
{"id": "C113", "title": "CTW over PTW follows trees whose leaves change at times of their own", "statement": "CTW of any depth over PTW over a model which learns a class of sources completes on all data over the alphabet and follows every tree with sources of that class at its leaves, even when the source at each leaf changes a few times, counted in the symbols of that leaf and independently of the other leaves. The price is, for each leaf, that of learning its source once per segment plus a number of bits proportional to its changes and the logarithm of the number of its symbols, and once the bits of the tree's shape. This holds over KT and any alphabet, and the probabilities of the updates sum to one over the alphabet.", "quantifier": "all alphabets, base models that learn a class of sources, tree shapes, depths, sources at the leaves, times of change at each leaf at multiples of the block length, data", "why_tests_cant": "The bound compares with every tree and, at each of its leaves, every sequence of sources and every choice of times; no set of examples covers them.", "anchors": ["model.py:CTW", "model.py:PTW", "model.py:KT", "model.py:Model.update_seq"]}
{"id": "C114", "title": "Factored learns and tracks sources that take turns", "statement": "If every factor learns a class of sources, Factored over them learns every combination of such sources that take turns, symbol number k coming from source k modulo the number of factors; its loss exceeds that of the combination by at most the sum of the factors' prices, each for the symbols it gets. In particular Factored over CTWs of different depths over KT, as in its documentation, learns a tree for every position. Factored over PTWs or FMNs tracks sources that change, the one at each position at times of its own; in particular FMNs over CTW over KT and trees. The class Factorized of ctw.py over its CTW, in particular over KT or SAD, learns trees that take turns in the same way.", "quantifier": "all numbers of factors, base models that learn a class of sources, alphabets, depths, trees, distributions, times of change at multiples of the block length at each position, data", "why_tests_cant": "The bound compares with every combination of sources of an infinite class and every choice of times at each position.", "anchors": ["model.py:Factored", "model.py:CTW", "model.py:KT", "model.py:PTW", "model.py:FMN", "ctw.py:Factorize"]}
{"id": "C115", "title": "Averager learns whatever one of its members learns, and tracks changes between members", "statement": "Averager over models each of which learns a class of sources completes on all data of the right form and learns every source that any of its members learns, at the price of that member plus the logarithm of the number of members. PTW and FMN over such an Averager track a source that changes a few times, even when different segments suit different members. In particular Averager over CTWs of several depths over KT learns trees without knowing their depth, and FMN over it tracks trees that change.", "quantifier": "all nonempty collections of distinct members, base models that learn a class of sources, alphabets, depths, trees, distributions, times of change at multiples of the block length, data", "why_tests_cant": "The bound compares with every source of the union of infinite classes, every assignment of members to segments and every choice of times.", "anchors": ["model.py:Averager", "model.py:PTW", "model.py:FMN", "model.py:CTW", "model.py:KT", "model.py:Model.update_seq"]}
