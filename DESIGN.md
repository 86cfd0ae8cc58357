# Formal model of forget-me-not: design

The properties are listed in `properties.jsonl` (C01, C02, ...). This file says what is
modelled and how each property is proved, lists what the proofs revealed about the code
("Findings"), and states the trusted base.

## Conventions

* `rocq/theories/Model/*.v`  – the model: shallow Gallina transcriptions of the Python
  (and C) functions, branch by branch, each definition citing file and lines. No proofs.
* `rocq/theories/Spec/*.v`   – small independent specifications (mixtures over trees and
  partitions, closed forms, ...). No proofs, no use of model helpers beyond data types.
* `rocq/theories/Proofs/*.v` – lemmas.
* `rocq/theories/Props/*.v`  – the property theorems only, each closed by `exact`, each with
  `Print Assumptions` and a concrete `Example` meeting its hypotheses.
* Exceptions are values (`result A := Ok a | Err e`). Loops that Python does not bound run on
  explicit fuel, and running out of fuel is an error value (`OutOfFuel`) excluded by the
  statements.
* A theorem named `..._refuted` shows that the unchanged code violates the property as a user
  would read it; it is recorded under "Findings". `..._partial` marks a partial result: the
  file of the property says what is missing. Most partial properties are partial because the
  rest is refuted, not because it is open.

## Numbers, strings, objects

Python floats holding probabilities and log-probabilities are modelled by Coq's real numbers
`R` (`ln`, `exp`, the comparison `v1 < v2` by `Rlt_dec`). This is the idealisation that the
floating point arithmetic is exact: rounding, overflow and underflow are not modelled, except
in C72, C73 and C101, which model `CTW_KT`, `PTW` and `Averager` with any arithmetic of a given
accuracy and bound the distance from the exact models, in C105 to C107, which do so for FMN, for KT and CTW over any base and for
models nested in one another, in C103 and C109, which do so for the arithmetic coder, and in C110
and C111, which compare the models so computed with sources that change.
Counts, indices, times and coder registers are `Z`/`nat`, exact as in Python.

Strings are lists of code points. What Python does beyond ASCII (case, digit and space classes),
`ast.literal_eval`, `float()` of a text and the text of a float are parameters of the model
(uninterpreted functions); the statements say what they assume about them, and the examples
instantiate them.

Mutable Python objects whose aliasing matters (the copy-on-write context trees, and the C
trees with manual memory) live on an explicit heap; elsewhere an object is its state and a
method returns the new state. numpy arrays are lists. Files read by pandas, random numbers and
`random.shuffle` are parameters.


## What is modelled

The first column is the file under `rocq/theories/Model`; each definition in it cites the exact
lines.

| model | code |
|---|---|
| `Py` | Python exceptions, lists, slices, dictionaries |
| `PyDict` | dictionaries with any keys |
| `PyStr` | strings and string methods, `re.split` as used |
| `Float` | `math.log`, `math.exp` over the reals; model.py:6-15 `logsumexp`, `logsumexp2` |
| `Iface` | model.py:17-78 `Model` (log_predict, update, update_seq, log_predict_seq, predict) |
| `KT` | model.py:81-187 `KT`, `KTBinary`, `SAD` |
| `Averager` | model.py:190-228 `Averager` |
| `CTW` | model.py:231-501 `CTW`, `CTW_KT` as values |
| `Heap, CTWHeap` | model.py:231-501 again, with shared nodes and reference counts |
| `ModelFast` | modelfast.py: the C tree, its memory and the Python wrapper |
| `PTW` | model.py:504-689 `PTW`, `PTWFixedLength` |
| `Stores` | model.py:692-793 `LogStore`, `LogStoreUniform`; learners.py `LogStore` |
| `FMN` | model.py:796-835 `FMN` |
| `Factored` | model.py:838-865 `Factored` |
| `CtwPTW` | ctw.py:210-332 `PTW`, ctw.py `KT` |
| `LearnersPTW` | learners.py `PTW`, `KT` |
| `AC` | ac.py: encoder, decoder, compress, decompress and the byte functions |
| `Helpers` | helpers.py:19-87 binary time arithmetic |
| `Regions` | helpers.py:490-552 |
| `Params` | helpers.py:114-120, utilities.py:1399-1490 |
| `Protocol` | environments.py:25-131, helpers.py:425-430 |
| `FileNames` | helpers.py:171-488 |
| `UtilNames` | utilities.py:262-341, 388-470, 560-740 |
| `Signals` | utilities.py:26-145, 236-250; features.py:46-104 |
| `Tiles` | sensors.py:1-320 |
| `CoinFlip` | environments.py:150-347 |
| `FileEnvironment, FileFilters` | environments.py:345-648 |
| `DataSplitter` | experiment.py:57-91 |
| `CtwCTW` | ctw.py:137-208, 22-47 (CTW with its own history) |
| `CtwFMN` | ctw.py:77-135, 319-332, 375-387 (SAD, Averager, PTW.map, FMN) |
| `PosixPath` | os.path: join, split, dirname, normpath, splitext (POSIX) |
| `Structures` | datasets.py:28-350, 369-432, 536-545, 580-676, 697-766 (Parsable and its subclasses without Struct; Structure: constructor, directory strings and reading them) |
| `LearnersAvg` | learners.py:394-427 (Averager) |
| `Pomdp` | pomdp.py (all of it; the random module is a parameter) |
| `Floats` | model.py:3, 10-14, 46-54, 120-137, 406-494, 535-636 once more (logsumexp2, update_seq, KTBinary, CTW_KT, PTW), with the float operations as a parameter |
| `LogData` | utilities.py:733-755, 986-1080, 1093-1289, 1321-1345 (log files: save_log_data, get_log_data and their helpers; files are a map from paths to texts; gzip, float and int of a text are parameters) |
| `LogFiles` | logfiles.py:38-49, 236-259, 293-335, 362-449 (LogWriter and LogReader without the pandas functions; what to_csv writes is a parameter) |
| `Jobs` | jobs.py:27-57, 70-135, 146-205 and z.py:91-97 (JobSet, the logs of jobs, the lines that z.py prints; the answers of the queue are a parameter) |
| `Zip` | z.py (all of it; docopt, the clock, memory use, the byte order and the printing of floats are parameters; that modelfast compiles and the output can be opened is assumed) |
| `Args` | datasets.py:102-147, 240-277, 311-313, 533-573, 923-925 (parsers of the classes, from_args, from_string, from_wildcard, get_arg_string) and the part of argparse that they use: options with two dashes, abbreviations, groups, choices, types, defaults |
| `Nested` | datasets.py:182-232, 350-431, 536-765, 1041-1085 (Structures that hold other Structures: directory strings, reading and construction) |
| `Records` | datasets.py:844-920 (records, items and selection of Structures) |
| `StructLogs` | datasets.py:433-530 and logfiles.py:262-284 (logs of Structures; writing and reading of CSV are parameters) |
| `Experiments` | datasets.py:416-431, 929-1038 (Experiments: entering, leaving, models; pickle is a parameter) |
| `Groups` | utilities.py:1370-1397, 1493-1583 (groups of parameter sets and matching them) |
| `Checks` | utilities.py:809-985 (set_attributes and validate_params) |
| `Folders` | utilities.py:757-791 (make_dirs; mkdir and exists on a tree without links) |
| `Dirs` | utilities.py:373-386, 480-519, 793-807 (get_all_dirs, split_ext, get_array_headers) |
| `PTWText` | learners.py:206-293 (the texts that describe a PTW) |
| `Gzip` | utilities.py:751-755, 1288-1343 (unzip, zipfile, file_exists without make_dir; gzip and encodings are parameters, there are no directories) |
| `Walk` | logfiles.py:54-72 (get_filepaths; os.walk over a tree without links) |
| `BestMatch` | utilities.py:343-370, 388-404, 1357-1368 (get_best_file_match, match_items, get_all_text_files) |
| `LogHeaders` | helpers.py:295-326, logfiles.py:452-522 (de_number, get_headers, file_complete) |
| `Copies` | model.py:81-228, 838-885 with objects and references (KT, KTBinary, SAD, Averager, Factored, Dumb and their copies) |
| `FMNObjects` | model.py:190-228, 504-650, 796-835 with objects and references (FMN, its store, the nodes of its tree and their Averagers) |
| `CtwFactorize` | ctw.py:389-426 with 11-41 (Factorize and its class Factorized) |
| `NumUtils` | utilities.py:146-224, 1081-1091 and ctw.py:7-9 (get_bin_index, log_sum_exp, mscb, argmax, bin_data, logsumexp; the rounding of log2 and linspace is a parameter) |
| `FloatsAverager` | model.py:6-8, 190-228 (logsumexp, Averager) with the arithmetic of floats as a parameter |
| `LearnersBase` | learners.py:11-57, 449-451, 497-526 (what models inherit; reset; SAD) |
| `FloatsAC` | ac.py:83-98, 188-194 with the arithmetic of floats as a parameter |
| `FloatsFMN` | model.py:638-650, 796-835 (PTW.map, FMN) with the arithmetic of floats as a parameter |
| `FloatsAny` | model.py:81-107, 231-375 (KT, CTW) with the arithmetic of floats as a parameter |
| `SmallHelpers` | utilities.py:469-478, 521-538; helpers.py:122-131, 624-629; features.py:39-44 |

## What is not modelled

* Floating point rounding, overflow and underflow, except in C72, C73, C101, C103, C105 to C107 and C109 to C111 (see above).
* jobs.py: graph_results, get_jobfilename and the command line; what the shell does with a script. local.py, the plotting code and the tests.
* logfiles.py apart from LogWriter, LogReader and what FileEnvironment reads; there, read_log and reformat_data (pandas reads and writes the files).
* datasets.py: constructor attributes of other fields than Structs, defaults of Structs, help texts of the parser, pretty_print of a Structure.
* ctw.py and learners.py apart from KT, PTW, LogStore, Averager and, in ctw.py, SAD, CTW and FMN.
* utilities.py apart from the lines above: mostly data frames.
* sensors.py from line 320: sensors built on data frames.
* z.py:99-105, the branch that no command line reaches.

## Plan per property

| id | property | status | proof |
|---|---|---|---|
| C01 | Log-space addition is exact and stays in range | proved | algebra of `exp` and `ln`; maximum of a list by induction |
| C02 | KT predictions always form a probability distribution | proved | invariant: the total is the sum of the counts; induction over updates |
| C03 | KT predictions depend only on how often each symbol was seen | proved | closed form of the block probability by induction; depends on the counts only |
| C04 | update() returns exactly what log_predict() would have returned | proved | case analysis per class; for CTW by induction on the context |
| C05 | KT redundancy is logarithmic | proved | induction on counts using monotonicity of (1+1/n)^n |
| C06 | KTBinary is KT on the alphabet {0,1} | proved | simulation between the two states |
| C07 | SAD predictions sum to one while unseen symbols remain | partial | sums over seen and unseen symbols |
| C08 | Averager is the Bayesian mixture of its models | proved | evidence of each member as invariant; finite sums commute |
| C09 | Averager is never much worse than its best model | proved | one term of a sum of positive terms |
| C10 | Averager.map returns a maximum-a-posteriori model | proved | maximum of a list of weights |
| C11 | CTW computes the context-tree weighting recursion | proved | relation between a node and the events that went through it; induction on the depth |
| C12 | CTW is a mixture over all context trees and competes with each of them | proved | the recursion expands to a sum over all trees; induction on the depth |
| C13 | CTW predictions form a probability distribution | proved | the recursion summed over the next symbol |
| C14 | CTW.log_predict has no observable effect on predictions | proved | every operation sequence with the log_predict calls removed gives the same results |
| C15 | CTW conditions on exactly the last depth symbols | partial | slices of lists |
| C16 | CTW.size counts the nodes of the tree | partial | counting nodes along the update; refuted through the heap model |
| C17 | CTW_KT and the C implementation agree with generic CTW | proved | simulations: CTW_KT to CTW, C tree to CTW_KT |
| C18 | Copies of a CTW are independent despite shared nodes | proved | heap invariant: reference count = number of references; every root represents a pure tree; frame lemmas |
| C19 | The C context tree never uses freed memory and frees everything | proved | the same invariant for the C heap, with freed cells; leak freedom by counting |
| C20 | PTWFixedLength computes the partition-tree weighting recursion | proved | relation between the spine of nodes and the segments they cover |
| C21 | PTW is a mixture over binary temporal partitions and competes with each of them | proved | the recursion expands to a sum over all partitions; induction on the height |
| C22 | PTW.update yields a coherent probability measure with unknown horizon | proved | telescoping of the evidence; one more level at each power of two |
| C23 | Not knowing the sequence length costs PTW at most ln(3/2) per doubling | proved | ratio of the two priors along the spine |
| C24 | PTW.log_predict agrees with PTW.update | partial | agreement inside partitions by induction on the spine; witness and general excess on boundaries |
| C25 | min_partition_length is rounded up to a power of two | partial | floor of log2 |
| C26 | The older PTW implementations agree with the recursion and with their own log_predict | proved | the same specification, other representation invariants |
| C27 | LogStore keeps a logarithmic, recency-weighted selection | proved | closed form of the retained indices by induction on the number of adds |
| C28 | LogStoreUniform keeps a logarithmic, evenly spaced selection | partial | the same, with the flags of the store |
| C29 | FMN.update is a probability measure | proved | instance of the PTW theorems for a factory that varies with time |
| C30 | FMN stores one model per period and never more than logarithmically many | proved | the store theorems along the updates |
| C31 | FMN competes with re-using any retained model on any partition | proved | PTW mixture bound composed with the Averager bound |
| C32 | Factored routes each symbol to the model of its position | partial | induction on time; remainder of the position |
| C33 | update_seq and log_predict_seq leave the caller's history as they found it | partial | induction on the sequence; slices |
| C34 | Arithmetic coder: decompress inverts compress on bit streams | partial | decoder interval equals encoder interval as invariant; termination by the width of the interval |
| C35 | Arithmetic coder: the encoder always makes progress | proved | the interval always straddles the midpoint after rescaling, so both parts of a split are non-empty |
| C36 | Arithmetic coder: compressed length matches the model's probability | proved | product of widths; quantisation bounded per symbol |
| C37 | Arithmetic coder: byte-level round trip | partial | bit reversal of a byte; witness by computation |
| C38 | Binary time helpers compute aligned block boundaries | proved | `Z.land`, `Z.log2`, `Z.testbit` lemmas |
| C39 | get_regions splits labelled data into its maximal constant runs | proved | induction on the labels |
| C40 | Parameter sweeps enumerate each combination exactly once | proved | induction on the parameters |
| C41 | Shared keys, unique keys and shared values of parameter sets | proved | list membership |
| C42 | calculate_return computes the discounted return | partial | induction on the rewards; geometric sums |
| C43 | Tile coding stays within the declared feature range | partial | floors of reals; mixed radix numbers |
| C44 | Protocol strings parse back to their parts | proved | splitting and joining strings |
| C45 | clean_string gives safe strings | partial | induction on the nesting of the value |
| C46 | CoinFlip follows its change-point schedule | partial | induction on time with the pending change points |
| C47 | Train and test data never overlap | partial | permutations; slices |
| C48 | FileEnvironment extends or crops data to exactly the requested length, at once or step by step | partial | induction on the files and steps |
| C49 | The KT estimators of ctw.py and learners.py return what model.py's KT returns | proved | simulation |
| C50 | get_outer_boundaries encloses a class in its neighbouring rest periods | proved | scan of the regions |
| C51 | Running means and decaying traces are windowed and discounted sums | partial | closed forms of the loops |
| C52 | scale_features maps a signal affinely onto the unit interval | partial | affine maps; minimum and maximum of a list |
| C53 | approx and all_approx compare with the stated tolerance | partial | unfolding; witness |
| C54 | Parameters come back from file names (helpers) | partial | splitting after joining, by induction on values |
| C55 | Parameters come back from joined names (utilities) | partial | the same |
| C56 | params_to_args writes every parameter on the command line | partial | induction on the parameters |
| C57 | split_number undoes join_number | partial | decimal digits |
| C58 | Modifiers of feature names are added, split off and removed consistently | partial | lists of words |
| C59 | FileEnvironment keeps the requested headers and filters each column with its own parameters | partial | filtering of lists; closures over the loop variable |
| C60 | ctw.CTW, which keeps its own history, is context tree weighting | proved | simulation by model.CTW, which gets the history handed over; then the CTW theorems |
| C61 | ctw.Averager is the mixture of its members, whatever they were trained on before | partial | simulation by the Averager of model.py; resetting a running total shows in no returned value |
| C62 | ctw.FMN is a probability measure, stores the models it should and competes with re-using them | proved | as C29-C31, with the PTW of known length over a base that depends on the time |
| C63 | PTW.map returns the maximum a posteriori base model | partial | posterior defined on partitions; its recursion compared with the scores; counterexample computed |
| C64 | Tracking a coin whose bias changes | proved | the partition splitting at the changes (C21) has few segments; KT redundancy (C05) on each; for FMN the first model is always retained (C30, C31) |
| C65 | Competing with every tree source | proved | tree regret (C12) with KT redundancy (C05) at each leaf; the tosses of the source grouped by leaf |
| C66 | A Structure is read back from its directory string | proved | texts are determined by the fields (C55, C56); paths in normal form split and join; loop invariant over the fields from the last to the first |
| C67 | Every constructed Structure can be found again by its directory string | partial | general for classes with only named positional fields; the others computed |
| C68 | The constructor of a Structure checks and converts its fields | partial | the effect of one field characterised; induction over the fields |
| C69 | learners.Averager is a Bayesian mixture with conditional predictions | partial | equal to the Averager of model.py step by step, without the subtraction in log_predict; then C08 and C10 |
| C70 | The streams of pomdp.py are uninterrupted runs of their worlds | proved | recursion equations of the observations; invariant of Switcher at the pair boundaries |
| C71 | The models of the POMDP notebook learn the hallway | proved | the hallway is a tree source of depth two with one exception at the start (C65), routed through Factored (C32); CTW_KT by simulation (C17); FMN by its regret (C30) |
| C72 | Rounding errors do not spoil a context tree | proved | error analysis: logsumexp2 is Lipschitz, children_log_prob telescopes over the computed values of the children; invariant relating the computed tree and the exact one |
| C73 | Rounding errors do not spoil partition tree weighting | proved | each node is at most (n + 2^(d+1) - 1) steps of loss away from the exact one, d promotions above the smallest height; the adjustment doubles with each promotion |
| C74 | Logs written by save_log_data come back through get_log_data | partial | words and lines of a written text are what was written; the loops of get_log_data over a file of comments, headers and rows; the comments are never in the result of get_log_data without keep_comments |
| C75 | Logs written by LogWriter come back through LogReader, and safe mode keeps every file | partial | the text after any operations is the concatenation of their lines, then as for C74; safe mode by cases on whether the file was there |
| C76 | Jobs are submitted for every combination of options, and their results are found in the logs | partial | split and join of the lines of the script; history of the submissions by induction over the combinations (C40); the lines of a log by the first colon, the later line prevails |
| C77 | z.py compresses a file without loss | partial | the code with zeros after it is a point of the interval of the message, and the intervals of different messages of one length are disjoint; PTW.update and FMN.update return probabilities that sum to one (C22, C29) |
| C78 | A command line sets the fields it names | partial | the tokens of a command line are those of its parts; invariant of consume over the parts; then the constructor (C68) |
| C79 | A Structure is rebuilt from its own command line | partial | the command line of an instance is a line of parts of C78, one for each field; the texts are read as in C66 |
| C80 | A Structure with other Structures in it is rebuilt from its directory string | partial | the path of an instance is the concatenation of the paths of its members; invariant of reading from the end for an arbitrary path in front (that of C66), by mutual induction over the nesting; the keywords left over by a class hold all of the classes inside |
| C81 | Structures are selected by their values, and rebuilt from their records | partial | induction over the options and over the fields; conversion of a value is idempotent, so the constructor keeps what it has stored |
| C82 | A Structure keeps its data in its own log | partial | case analysis of the calls; that instances with one log are alike follows from reading the directory back (C80) |
| C83 | An Experiment places its parts in its directory and keeps their models | partial | mutual induction over the members and the parts inside, with the state of the file system; own models by reading the directory back (C80) |
| C84 | Parameter sets are grouped by their values | partial | the groups after each set are the filters of the list so far; texts without underscores are read back from the joined name |
| C85 | Attributes are set from valid parameters, and parameters are checked as required | partial | induction over the parameters; case analysis of requirements and values |
| C86 | make_dirs makes all directories of a path | partial | induction over the components from the root, with the tree of directories as invariant |
| C87 | The directories in a path and its extension are found as written | partial | normpath without two dots is slashes and the names; induction over the names from the end; occurrences of the base directory |
| C88 | The headers of an array are different and in order | partial | digit strings of one length are ordered as their values; the number of digits grows with the number |
| C89 | The texts that describe a PTW name its completed blocks and its models | partial | the stored weights are those of the blocks of the binary digits of the number of steps (invariant of LearnersPTWFacts) |
| C90 | Files are compressed and uncompressed without loss | partial | induction over the lines; case analysis of the files that are there |
| C91 | get_filepaths finds all files of a name in a directory tree | partial | induction over trees; paths below a directory are different because names have no slash |
| C92 | get_best_file_match finds the file with the required features and the fewest others | partial | induction over the files with the best one so far; sizes of sets under an equivalence of items |
| C93 | Numbers at the end of names are found, and files are checked for the headers they must have | partial | induction over the name from its end; induction over columns and headers |
| C94 | Copies of models are deep | partial | refinement with footprints (separation): induction over values and programs |
| C95 | FMN keeps its models apart | proved | refinement of the model of FMN.v: footprint of the tree, disjoint from the store; relational stores |
| C96 | Combinations of PTW, FMN and CTW track sources that change | partial | composition: segments of the source against the partitions of PTW, with the regret of any base learner; leaves of the tree each with a PTW |
| C97 | Factorize sends each symbol to the model of its position | partial | induction over the calls: projection onto the calls of one factor; the refinement of C60 for factors that are CTW |
| C98 | The numerical helpers compute what they say | partial | t xor (t+1) is all ones; the logarithm of 2^m - 1 is nearer to m than to the next double below from m = 49 on; pieces between increasing cuts |
| C99 | KT and SAD pay for the symbols that occur, not for the alphabet | proved | induction over the sequence with sums over the alphabet; bounds of factorials; the best source has the relative frequencies; for SAD a telescoping bound of the escape weights |
| C100 | The compressed size is bounded by the model's loss, whatever happens to the coder's interval | proved | amortised: the logarithm of the interval, cut off at k bits, is a potential; a short interval around the midpoint gives at least N-k bits when it is left; a convex sequence lies below its chord. Refuted for a constant by a model with period three |
| C101 | Rounding errors do not spoil averages of models | proved | logsumexp is Lipschitz, with a sum of d terms between 1 and d; invariant relating each weight to the exact one; the total of the values returned telescopes |
| C102 | The models of learners.py keep the account of their losses, and predict from a distribution | partial | the representation invariants of KT and PTW; normalisation of the recursion; the walk of the first step after reset |
| C103 | Decompression inverts compression when floats round | partial | the simulation of C34 with any coder, cut at the first difference; rounded quotients as integers, and a computation with them |
| C104 | Memory and work grow with the logarithm of the length of the data | proved | shape invariant of the tree by its count; the top binary digit of the count is the left part; the paths of a context tree are the prefixes of the contexts met |
| C105 | Rounding errors do not spoil FMN | proved | the run with rounding is accompanied by an exact PTW over averages of exact twins of the models actually retained; the competitive bound of that PTW and the error of one step; the first model is always retained by a LogStore, so the bound of C64 carries over |
| C106 | Rounding errors do not spoil KT and CTW | proved | relative error of the counts and of their sum; invariant over the tree, each node near the exact one with an error growing with its height; the values returned telescope; instances of the theorems about PTW and FMN |
| C107 | Rounding errors do not spoil nested models | proved | PTW with rounding: shape invariant of the exact tree by which its values move with those of the base model; the invariant of C73; induction over the nesting |
| C108 | Parameters are found again in paths, command lines and dictionaries | partial | the name has only safe characters and a dash, so it is one component of the path; keys stay distinct; the round trip of C55 |
| C109 | The compressed size stays bounded when floats round | proved | the potential of C100 with the error of one split; the rounded model follows the exact one step by step (C106, C107), so its probabilities stay away from 0 and 1 (for FMN: the exact PTW that accompanies it in C105, normalised by C29); the bounds of KT and PTW for sources and of C105 |
| C110 | Models computed with rounding track sources that change | proved | the exact model learns (C96) and the rounded one follows it (C105 to C107); for FMN the partition of C105 with the first model, which a LogStore retains, on every segment; CTW_KT returns what CTW over KTBinary does |
| C111 | CTW over any learner, KT or SAD over any alphabet, learns trees, also trees that change | proved | the bounds of C99 give the learners; the losses of the leaves add up (C65) under the regret bound of CTW (C12) for any base model; PTW and FMN by the general theorems of C96; with rounding by C106 and C110 |
| C112 | The models of ctw.py and learners.py learn, and track sources that change | proved | ctw.CTW gives the values of model.CTW (C60), to which C111 applies; ctw.PTW and learners.PTW compute the recursion (C26), ctw.FMN competes with partitions (C62), and some partition follows the changes (C96); their estimators return the values of model.KT and model.SAD (C49, C61) |
| C113 | CTW over PTW follows trees whose leaves change at times of their own | proved | the regret bound of CTW (C12) holds over any base model, and the losses of the leaves add up (C65), PTW at each leaf tracks the source of that leaf (C96), and the probability of the data is the product over leaves of that of their symbols |
| C114 | Factored learns and tracks sources that take turns | proved | each factor runs on its own symbols (C32), so their losses add up; the probability of the data is the product over positions; C96 and C111 for the factors; for Factorized the product formula of C97 |
| C115 | Averager learns whatever one of its members learns, and tracks changes between members | proved | the regret of Averager against each member (C09) added to what the member loses to its source; its updates never fail while those of its members do not (C08), so the tracking theorems of C96 and C111 apply to Averager as a base model |

What is missing for the partial ones:

* C07: The full expectation (always normalised) is refuted: once all symbols were seen the sum is below one.
* C15: Depth >= 1. Depth 0 is refuted: the whole history becomes the context.
* C16: Proved for every object that was not made by copy() and has not been copied. After copy() it is refuted: new nodes of the copy are counted on the original; in C a log_predict on a copy changes the size of the original.
* C24: Full property refuted: on partition boundaries log_predict disagrees with update and its predictions sum to more than one (proved for every boundary). Agreement proved everywhere else.
* C25: The documented rounding up is refuted; the code rounds down (proved).
* C28: Retention, spacing, order and size proved. s[-1] is refuted: it always raises IndexError (the doctest in model.py claims 0).
* C32: Routing, isolation, sums and lawfulness proved; that the caller's weight is passed on is refuted (Factored.update drops it).
* C33: Proved for every non-empty sequence; the empty sequence is refuted: history is erased.
* C34: Full property refuted: with ctw.py's KT and 32 bits the message 1 1 compresses to 1 1 0 and decompressing that never returns. Proved: whatever is returned is the message; it is returned when the last symbol put out a bit, or the code ends in 01 and the model is not extreme. The code (given the length) determines the message for every coherent model, without any condition on precision (C34_lossless).
* C37: Refuted with KT on the byte 1 (129 decodes to 128). Proved: pack after unpack reverses the bits of every byte, so bytes come back reversed even where the bit-level coder is right.
* C42: Refuted for the default arguments: without a horizon and with a discount of one every call on a non-empty sequence raises TypeError. Everything else proved.
* C43: Proved when frac(1/width) < 1/num_tilings (always so for the default width); C43_range_exact shows the condition is necessary, C43_range_refuted gives a coder that exceeds its range (width 0.6, two tilings).
* C45: Strings: proved. Nested values: safe if all keys are safe; keys are not cleaned (refuted).
* C46: Increasing schedules: proved, for get_data and calls. Refuted: a change point not after its predecessor is never passed and blocks all later ones; the probability is that of a zero; after get_data the object cannot be called.
* C47: Refuted as it stands: math is not imported, so 'half' and 'sample' raise NameError for all data, and any other mode returns the data twice. Proved with the name bound.
* C48: Blocks and get_all_data proved; stepping proved equal for steps >= 0 and non-empty files. Refuted: negative steps and empty files differ between the two ways of reading.
* C51: running_mean is refuted for a window of one step, which returns nothing; proved for all other windows.
* C52: Refuted for constant signals, which are returned unscaled; proved for all others.
* C53: utilities.approx with a precision is refuted (10**precision instead of 10**-precision); helpers.approx and all_approx proved.
* C54: Texts: proved. Values: for the kinds listed. Refuted: {}, one-element lists, strings that read as numbers, floats whose text has a dash.
* C55: Proved for the values described by comes_back. Refuted: lists of two numbers raise TypeError, numbers in lists lose their sign.
* C56: Proved except for the numbers 0 (dropped) and 1 (value lost), which are refuted.
* C57: Proved for n >= 0, any name and width; negative numbers refuted.
* C58: Splitting, removing and matching proved; add_modifiers tests for substrings, so some names do not get a modifier they lack (refuted).
* C59: Headers proved. Filters: proved if only the last header is scaled; in general all columns are scaled with the range of the last header (refuted).
* C61: Proved for classes whose log_prob is a running total (KT and SAD shown to be). Refuted for members that are PTW, CTW or Averager: the predictions sum to the mean of the probabilities the members gave to their past.
* C63: Proved: a base with the best score is returned, and its posterior is at least 2^-d times the best one. Refuted as stated: the scores ignore the levels the tree leaves out, so the base returned need not be the maximum a posteriori one.
* C67: Refuted as stated; C66 gives the conditions under which it holds. Refuted by classes with named positional fields only (CoinEnv), positional lists, positional names with underscore, unset nameless fields, underscores in values, values ending in .txt, sentinels that are not first, Boolean texts, unset Listables and integer lists.
* C68: Proved for all classes of fields but Struct, for any float parser returning floats; validity for fields that are neither Listable nor Keyed. Refuted for Listable, which ignores its choices.
* C69: Proved: log_prob, map, and exactly what log_predict and reset do. Refuted: predictions after an update do not sum to one (they sum to the probability of the past), and reset keeps the members trained.
* C74: The round trip is proved for data whose first column is the shortest, with single-word names and values, names not differing only in characters clean_string drops, no column 'comments', one-line notes and paths without 'gz'; outside these conditions it fails (refuted, with examples). get_snippets always raises, simplify_logs never changes a file, a failed save leaves a truncated file (refuted).
* C75: The round trip is proved for rows with one word per header, one-line comments and a first header that begins neither with '#' nor a digit, in a path with a directory, reading row by row. Refuted: a loop over a reader sees only one row; a path without a directory raises; write_log always raises; a data frame written under its headers cannot be read back; check_headers raises on a log with comments only; write_list of a string writes letters; with binds None in safe mode if the file exists. read_log and reformat_data (pandas) are not modelled.
* C76: Proved for options on one line, a log_name of allowed characters, and (for scripts and logs that can be told apart) protocols and models without dashes and depths from zero. Refuted: in debug mode, or when the queue fails, jobs that differ in base_dir or platform only overwrite each other's script; slashes of log_name are dropped; the ratio is not found if z.py prints a number of nodes; a log with fewer than two dashes in its name, or an empty one, makes get_all_logs fail; logs whose names agree up to the first dot share a row. What the shell does with the script is not modelled, nor is graph_results.
* C77: Proved for the models KT, PTW and FMN and non-empty inputs below 4 GiB with OUTFILE different from INFILE (exact arithmetic for the models' probabilities). Refuted: the default model CTW and seven others raise; an empty input raises after the output is written; larger inputs empty the output; a file compressed onto itself is lost silently; uncompress always raises.
* C78: Proved for classes whose options differ and for command lines in which no field is given twice. Refuted: the default of a Listable, Keyed or required field is not used; an optional Integer that is not named raises TypeError and an optional String becomes the text None; a short option of another class sets a field whose name begins like it (and --h ends the program); a Listable x beside a field xs leaves the class without parser. Help texts and the messages of argparse are not modelled; argparse itself is (options with two dashes, as in Python 3.4).
* C79: Proved for instances with all fields set, texts without spaces that argparse takes for arguments, no numbers in fields without class, at most one value with nargs. Refuted for each of these: texts with a space lose the rest, numbers of an untyped field become texts, a list that begins with a negative number and negative numbers with an exponent end the program, several values become one, an unset field after a dictionary raises IndexError; from_wildcard of a directory string with two dashes parses it as a command line; a Boolean without default that is not given has no command line.
* C80: Proved, for any depth, for Structs with a constructor, keyword=False and positional=True that hold an instance, with names that differ on all levels. Refuted otherwise: without constructor (all Structs of the repository) no directory is read; with the default flags the name of the Struct stays in base_dir, or is read as the positional field before it; keyword=False without positional=True loses the fields; a name on two levels or two Structs of one class mix up their values; an unset Struct takes the directory of the field before it. Structs have no default, constant, choices or nargs here.
* C81: Proved: exactly when matches and matches_param answer yes, for options that are lists or single values other than None and dictionaries, and values that have a text; the entries of a record; that constructor after items or record restores the fields of flat classes whose fields all have values. Refuted: values in drop_vals leave nothing out (only texts with the name of the field do); a list does not match itself; an unset field, or a Struct, means AttributeError instead of a record; the directory is not in the record; a negative nargs shrinks the list each time.
* C82: Proved: save_data() writes the log once and no other file, for all classes and file systems; instances with one log have the same fields on all levels; load_data() gives the saved data if the class has an attribute base_path. Refuted: no class has it, so load_data() and data fail for a log that is there; load_data(base_dir) reads the file at the top of base_dir, maybe the log of another Structure; save_data(data) writes other data, or a log without data that blocks later saving.
* C83: Proved: entering places the parts of all levels one inside the other and keeps every field (for classes whose parts can all be entered), run, what leaving writes, what load_model gives, and that instances with one model file have the same fields. Refuted: positional fields of the Experiment are not in the directories of its parts, so different Experiments share directories, and the second gets the model of the first; an AttributeError while a part is entered is dropped, and its parts have no directory.
* C84: Proved: the groups are a partition that keeps the order, their names, and that sets are together exactly if their values are the same, if each key has whole numbers or words; check_param_matches if both have the restricted keys. Refuted: values with one text are together (1 and "1", missing and "None"), lists with underscores run into the next key, a key given as string is taken for its letters, a restricted key that is missing raises KeyError.
* C85: Proved: what set_attributes sets, when it succeeds, and that nothing changes if a valid parameter is missing; what validate_params accepts, for all kinds of requirements. Refuted: with a value None some attributes are set before the exception; any part of a required string is accepted; a list is refused although it is the value required.
* C86: Proved for paths from the root (plain components) where making is allowed; what is there stays, in all cases. Refuted: if the second directory above cannot be made the path is given back though it is not there, if the third the recursion has no end; of relative paths with several new levels nothing is made, and from three on the path is given back. Links are not modelled.
* C87: get_all_dirs is the names of the path for all paths without `..`, and below a base directory that is in the path once; split_ext for all paths. Refuted: the base directory itself gives the dot, part of a name is taken for a directory, a base directory that is there twice or not written in its normal form raises ValueError.
* C88: Count, form, difference and order for all names and lengths; different names of safe characters without dashes share no header. Refuted for other names: characters that are not kept are dropped.
* C89: get_model_string and repr for all models, depths and sequences; get_child_string if no prediction of a block is certain (always so for KT with two symbols or more). Refuted: a block whose sequence has probability one is not named.
* C90: Round trip, no loss and file_exists for all files and paths whose name is not only dots, with gzip and the text encoding as parameters. unzip is right if the uncompressed file is not there before; refuted otherwise: any file of that name is taken, also what a failed call has left.
* C91: Exact names at any depth, each once, for all trees with plain names; with partial=True exactly which files are given. Refuted: a file of exactly the name hides the others in its directory; paths to ignore are compared as texts.
* C92: For one feature, with or without modifiers: the file of its name, compressed or not, otherwise the first file with the fewest others, of those with one at least and less than ten times the length of the string. Refuted: a list of features always raises AttributeError; files without others or with more are not found.
* C93: Proved: de_number for all names that do not end like a number; get_headers for all columns; file_complete without lines, one way. Refuted: file_complete is true if one of the headers is there; a missing header or a number of lines raises NameError; names that are a number raise IndexError.
* C94: Proved for all programs in which a model that is put into another is not used otherwise. Refuted: the copy of a Factored with a shared model does something else; Dumb cannot be copied. PTW, PTWFixedLength and FMN have no copy either (by reading).
* C96: Loss bounds and the updates being a measure are proved, for change times on multiples of 2^min_height. Refuted part: the predictions of CTW over PTW sum to more than one on partition boundaries, as those of PTW do (C24).
* C97: Proved of the class Factorized. Refuted of the code: Factorize returns itself instead of the class, so the class cannot be reached; log_predict_seq([]) forgets the history; a log_predict_seq that raises leaves symbols in the history.
* C98: Proved for mscb below 2^46 - 1, for log_sum_exp, logsumexp and argmax, and for bin_data of 100 values and up to 50 bins. Refuted of the code: mscb(2^48 - 1) is 49 instead of 48; bin_data assumes 100 values (more are summed into the last bin, fewer raise, more than 100 bins divide by zero); get_bin_index always raises NameError.
* C102: Proved: accounts and predictions of KT and PTW, reset of KT. Refuted of the code: reset of PTW keeps the base models and the finished parts; from_sequence always raises NameError; update and log_predict of SAD always raise. Exact arithmetic.
* C103: Refuted of the code: with nothing but exp rounded to the nearest double, KT and the 34 bits 0 1 ... 0 1 are decoded to other bits. Proved for any arithmetic: what is decoded begins with the symbols for which encoder and decoder split alike; if they do for all of the message nothing else is returned, and it is returned when the last symbol puts out a bit; they do when the computed probabilities of 0 and 1 are complements to the last digit.
* C108: get_dir_params, confirm_membership and unit vectors for labels 0 to n-1 are proved as stated. Refuted: values with white space are not quoted in params_to_arg_string (proved for arguments that are single words); dicts_exact_match compares one way only and raises for unhashable values (proved: it tells whether the second dictionary extends the first; both ways together mean equality); negative labels are taken for other classes.

## Findings

Behaviour of the unchanged code that contradicts what a user would expect. Entries with a
theorem name are proved about the model; the others were found by reading while modelling.

### model.py

* `PTW.log_predict` disagrees with `update` at every completed partition: its predictions there
  sum to more than one; FMN inherits it (`C24_ptw_log_predict_refuted`,
  `C24_ptw_boundary_not_normalised`, `C24_ptwf_boundary_not_normalised`,
  `C29_fmn_boundary_not_normalised`).
* `min_partition_length` is rounded down to a power of two, not up (`C25_rounds_up_refuted`).
  With floats `math.log(2**29, 2)` is slightly more than 29, so that `PTWFixedLength(2**29)` has height 30.
* `CTW.copy`: the node factory of the copy is bound to the original, so new nodes of a copy are
  counted in the original's `size` (`C16_copy_size_refuted`).
* `CTW` with depth 0 conditions on the whole history, because `history[-0:]` is everything
  (`C15_depth0_refuted`, `C15_depth0_whole_history`).
* `Factored.update` ignores its weight (`C32_weight_refuted`, `C32_weight_never_matters`).
* `update_seq` and `log_predict_seq` of an empty sequence erase the caller's history
  (`C33_update_seq_refuted`, `C33_log_predict_seq_refuted`, `C33_empty_erases`).
* `PTW.map` is documented as the maximum a posteriori predictor. Its scores ignore the levels of the
  partition tree that are not represented, so it can return another base; FMN stores that one
  (`C63_map_refuted`; the same code is in ctw.py).
* `SAD` is not normalised once all symbols were seen (`C07_sad_always_normalised_refuted`).
* `Averager` keys its members by object, so a model given twice counts once
  (`C08_averager_duplicates_refuted`).
* `LogStoreUniform`: `s[-1]` always raises IndexError (the doctest says otherwise), and
  `s[len(s)]` returns the newest item (`C28_last_index_never_works`, `C28_past_the_end_wraps`).
* By reading: the children of a non-binary CTW node have no iterator, so `copy()` raises
  TypeError for `binary_context=False`; `PTW.Node.copy` needs `copy` on its base models but PTW
  and Dumb have none; `Model.predict` requires a history, so `ac.py`'s `model.predict(0)` is a
  TypeError with the models of model.py.

### modelfast.py

* `log_predict` creates nodes inside shared nodes, so predicting with a copy changes the `size`
  of the original (`C16_fast_size_refuted`).
* Symbols that are not below the alphabet size, and bytes from 128 on (a signed char), index
  outside the arrays (`C19_unchecked_symbols_refuted`).
* By reading: a negative depth becomes a huge context length; depth 0 ignores the context where
  model.py uses the whole history.

### ac.py, z.py

* `decompress` never returns on some codes of `compress`, for example KT on the message 1 1
  (`C34_decompress_never_returns_refuted`); `_3_4 = top - half` makes the follow-bit branch of
  the code dead.
* The byte functions unpack the least significant bit first but pack the most significant bit
  first: byte 1 comes back as 128 (`C37_byte_round_trip_refuted`, `C37_bytes_reversed`).
* When rounding leaves no room for the symbol, `encode` never ends (`C35_no_room_never_ends`).
* By reading: the `decompress` branch of z.py, which no command line reaches (see C77), passes the module
  `model` instead of the model object, calls an undefined name and writes an int.

### ctw.py, learners.py

* A full `ctw.PTW` refuses `update` but not `log_predict`; a full `learners.PTW` the same
  (`C26_ctw_full`, `C26_learners_full`, `C26_learners_full_predict`).
* By reading: `learners.Averager.update` returns None; `learners.SAD` uses undefined names;
  `helpers.listify` is imported from the wrong module; `ctw.Factorize` returns itself;
  `ctw.ProbSeq.prob` uses an undefined attribute.
* `ctw.Averager` (and so `ctw.FMN`) sets `log_prob` of its members to 0. PTW, CTW and Averager compute
  `log_prob` anew, so with trained members of these classes the predictions sum to the probability the
  members gave to their past instead of 1 (`C61_recomputed_refuted`, `C61_ptw_member_refuted`,
  `C61_ctw_member_refuted`; a PTW over KT after one symbol: 1/2, `C61_half_refuted`).

### helpers.py, utilities.py, features.py

* `calculate_return` raises TypeError with its default arguments (`C42_defaults_refuted`).
* `running_mean` with a window of one step returns nothing (`C51_window_one_refuted`).
* `scale_features` returns constant signals unscaled (`C52_constant_refuted`).
* `utilities.approx` compares with `10**precision` (`C53_precision_refuted`).
* `clean_string` leaves dictionary keys as they are (`C45_keys_refuted`).
* File names lose `{}`, one-element lists, strings that look like numbers and floats such as
  1e-05 (`C54_empty_refuted`, `C54_short_list_refuted`, `C54_number_string_refuted`,
  `C54_small_float_refuted`).
* `utilities.split_params` raises TypeError on a list of two numbers and drops signs in lists
  (`C55_two_numbers_refuted`, `C55_sign_refuted`).
* `params_to_args` drops 0 and loses the value 1 (`C56_numbers_refuted`).
* `split_number` takes the sign for part of the name (`C57_negative_refuted`).
* `add_modifiers` tests for substrings (`C58_add_refuted`).
* `get_all_combinations` of no parameters yields nothing, `unique_dict_sets` yields the empty
  dictionary (`C40_no_parameters`).
* By reading: `get_bin_index` and `calculate_return_series` use undefined names;
  `format_join` passes a list to `os.path.join`;
  `de_string('½')` raises ValueError.

### sensors.py

* `TileCoder` exceeds its feature range when the fractional part of 1/width is at least
  1/num_tilings (`C43_range_exact`, `C43_range_refuted`). `get_coder` puts the bias first,
  `get_active_tiles` last.

### environments.py, experiment.py

* `CoinFlip` never passes a change point that is not after its predecessor
  (`C46_unordered_refuted`); its probability is that of a zero (`C46_bias_refuted`); after
  `get_data` the object cannot be called (`C46_call_after_refuted`).
* `DataSplitter` uses `math` without importing it, so 'half' and 'sample' always raise NameError
  (`C47_half_refuted`, `C47_sample_refuted`); other modes return all data twice
  (`C47_other_refuted`).
* `Protocol`: 'a-1-0' does not parse back to itself (`C44_unstable_refuted`).
* `FileEnvironment`: negative steps and empty files differ between reading at once and stepping
  (`C48_negative_refuted`, `C48_empty_refuted`); the scaling lambda captures the loop variable,
  so all columns use the range of the last header (`C59_filters_refuted`).
* By reading: experiment.py refers to `LogStore` and `mode.CTW_KT`, both undefined;
  `get_file_filters` uses undefined `gamma`, `horizon`; `get_env_data` uses unset attributes.

### datasets.py

* A class whose only fields are named and positional, such as `CoinEnv` in experiment.py, writes
  directory strings that it cannot read (`C67_positional_alone_refuted`,
  `C67_positional_two_refuted`): `_has_keyword` counts them, so the last directory is taken for the
  named fields at the end.
* A list in a named positional field comes back as text with the name in front
  (`C67_positional_list_refuted`); a name with an underscore raises KeyError
  (`C67_positional_underscore_refuted`).
* If the optional nameless field is not set, another field is read as it
  (`C67_nameless_unset_refuted`).
* Values with underscores can make two instances share a directory (`C67_collision_refuted`);
  values ending in `.txt` are cut off (`C67_text_file_refuted`).
* The sentinel check stands after the loop and uses the loop variable, so only the first field is
  checked (`C67_sentinel_refuted`).
* `Boolean.set_parameter` is called nowhere: 'False' becomes True (`C67_boolean_text_refuted`).
* An optional `Listable` that is not given holds the class `empty`, which shows in the directory
  string (`C67_listable_unset_refuted`).
* `nargs` fields of integers: literal_eval('1-2') is -1 on older Pythons
  (`C67_integers_refuted`).
* An optional named positional field that is not set is looked for in the base directory, which is
  misread or raises (`C67_optional_positional_refuted`).
* `Listable` and `Keyed` ignore `choices` and `nargs` (`C68_listable_choices_refuted`).
* By reading: `Struct` fields take their class from `constructor`, while experiment.py passes it as
  `default` and the tests as `dtype`, so reading a directory string of such a class raises
  AttributeError; `Parsable.copy_self` uses the undefined name `k`.
* `learners.Averager.log_predict` does not subtract `log_prob`: it returns the probability of the
  whole sequence with the symbol, so that the predictions sum to the probability of what was seen
  (`C69_predictions_total`, `C69_distribution_refuted`). Its `update` returns None, so it cannot be a
  member of another Averager. `reset` keeps what the members have learned (`C69_reset_refuted`).
* By reading: `learners.SAD` raises on every call (its parameter is `symb`, the body uses `sym`; the
  constructor sets `counters`, the methods use `counts`).
* `pomdp.Room`: the wall stops nobody (`C70_room_wall_refuted`), and its observations are no tree
  source of any depth (`C70_room_context_refuted`), unlike those of the hallway.
* `utilities.get_snippets` raises on every call and writes nothing: the comments it pops were already
  removed by `get_log_data` (`C74_snippets_refuted`). For the same reason `simplify_logs` never shortens
  a file: it returns at once or raises KeyError (`C74_simplify_refuted`).
* `utilities.save_log_data` opens the file before it notices a short column or an empty note, so the old
  contents are lost when it raises (`C74_atomic_refuted`); columns longer than the first are cut silently
  (`C74_any_data_refuted`).
* `utilities.get_log_data`: a header such as `a-b` takes the place of the column `ab`; a note `#text`
  comes back as `ext`; a column `comments` is lost (`C74_any_data_refuted`); any path containing `gz` is
  opened as a gzipped file (`C74_any_path_refuted`); a blank line before the headers turns the headers
  into data, one at the end raises IndexError, an empty file UnboundLocalError (`C74_blank_refuted`).
* `logfiles.LogReader.__iter__` yields one row and stops: a `for` loop over a log sees its first row only
  (`C75_iteration_refuted`). If the first header begins with a digit, the line of headers is that row
  (`C75_read`). `check_headers` raises IndexError on a log that has comments but no headers yet
  (`C75_check_headers_refuted`).
* `logfiles.LogWriter('log.txt')` raises FileNotFoundError: `os.makedirs('')` (`C75_any_path_refuted`).
  `write_log` always raises AttributeError, because `__enter__` returns the file and not the writer; it
  leaves a file with one comment behind, which safe mode then protects (`C75_write_log_refuted`). For the
  same reason `with LogWriter(...) as f` binds None when the file exists in safe mode (`C75_with_refuted`).
* `LogWriter.write_dataframe` requires headers, which are already in the file, and writes a comment and the
  headers again: LogReader raises ValueError at the first row (`C75_frame_refuted`). `write_list('ab')`
  writes `a b` (`C75_write_list_refuted`).
* jobs.py. In debug mode every script is called `NAME.DEBUG.sh` (and `NAME.FAILED.sh` when qsub fails), and the
  name has protocol, model and depth only: jobs that differ in `base_dir` or `platform` overwrite each other's
  script (`C76_kept_refuted`). The slashes of `log_name` are dropped: `runs/today` becomes the directory
  `runstoday` (`C76_log_dir_refuted`). `pull_stats_from_file` looks at seven lines, but z.py prints seven figures
  when the model has a `size`, and the script one more line: the ratio is lost (`C76_finished_refuted`). A file such
  as `notes.log` or an empty log in `logs` makes `get_all_logs` raise (`C76_table_refuted`, `C76_table_fails`), and
  logs whose names agree up to the first dot overwrite each other's row (`C76_results_refuted`). `run_now` never
  runs anything, because the module z has no `__main__`, and the exception is caught.
* z.py works with the models KT, PTW and FMN only. The default CTW, FastCTW, CTW_KT and CTW_PTW fail at the first
  bit, because ac.py calls `update(symbol)` and they demand a history (`C77_default_refuted`); PTW_CTW, FMN_CTW and
  their fast versions need `model.CommonHistory`, which does not exist (`C77_common_refuted`). `uncompress` always
  raises KeyError (`args['decompress']`; `C77_uncompress_refuted`). An empty input ends with ZeroDivisionError
  (`C77_empty_refuted`), one of 4 GiB with OverflowError after the output has been emptied (`C77_huge_refuted`). With
  OUTFILE equal to INFILE the file is lost without an error: five bytes remain (`C77_same_file_refuted`).
* datasets.py, command lines. argparse puts None in for a field that is not named, and the constructor takes that for
  a value: the default of a Listable field becomes `[]`, that of a Keyed field None (`C78_default_refuted`), an optional
  Integer or Float raises TypeError, an optional String becomes the text `None` (`C78_optional_refuted`). A required
  field with a default must be named (`C78_required_default_refuted`). Several classes are meant to read one command
  line, but argparse accepts abbreviations: `--al 5` of one class sets `alpha` of another, and `--h` prints the help and
  ends the program (`C78_others_refuted`). A Listable `x` beside a field `xs` makes every call raise ArgumentError
  (`C78_class_refuted`).
* `get_arg_string` quotes nothing: a text with a space loses the rest (`C79_space_refuted`), `--cut -1-2` and
  `--rate -1e-05` end the program (`C79_negative_refuted`, `C79_exponent_refuted`), the values of a field with nargs are
  joined by a dash and become one (`C79_several_refuted`), an unset field after a Keyed one leaves an empty word:
  IndexError (`C79_unset_refuted`). `from_wildcard` takes any text with `--` for a command line, also the directory
  string of an instance (`C79_directory_refuted`).
* Structs (Structures inside Structures) work for declarations that the repository never uses. `Parsable.__init__` has the
  defaults keyword=True and positional=False, which replace the class attributes of Struct: the directory gets the name of the
  Struct, and reading leaves it in base_dir (`C80_default_flags_refuted`) or takes it for the positional field in front
  (`C80_default_flags_field_refuted`). The declarations in experiment.py and the tests give no `constructor`, so that no directory
  string can be read (AttributeError; `C80_no_constructor_refuted`); what they give as default is the class, not an instance.
  Two Structs of one class, or a name on two levels, mix up their values (`C80_same_class_refuted`, `C80_same_name_refuted`).
* `Structure.matches` compares values and texts for `assert_vals` but only texts, with the name of the field, for `drop_vals`:
  `drop_vals={'seed': 5}` leaves nothing out (`C81_drop_refuted`), while `matches_param` wants the text without the name. A Listable
  field asked for by its own value does not match (`C81_list_refuted`). `get_flat_record` and `items` raise AttributeError if any
  optional field is unset (`C81_unset_refuted`), and `get_flat_record` for every class with a Struct, because it looks for the inner
  fields in the outer instance (`C81_nested_refuted`).
* Logs of Structures cannot be loaded: `load_data` uses `self.base_path`, which no class has (`C82_load_refuted`), and so does the
  property `data` for every log that exists (`C82_data_partial`). With `base_dir` it checks for the log in the directory of the
  instance, but reads `base_dir/log_file` (`C82_load_top_refuted`). `save_data(data)` writes `self._data`, not `data`
  (`C82_save_other_refuted`); without `_data` it fails after writing the first line, and that file stops all later attempts to
  save (`C82_save_given_refuted`).
* `Experiment.__enter__` gives its parts the directory of its base_dir and of what comes before them, but leaves out the positional
  fields of the Experiment itself: Experiments that differ in these fields log apart, but their parts share directories, and loading
  the model of the second gives that of the first (`C83_shared_refuted`). An AttributeError inside the `__enter__` of a part is taken
  for a part that cannot be entered: no error, but the parts inside have no directory (`C83_silent_refuted`).
* `group_by_keys` compares joined texts: 1 and "1", and a missing key and "None", are in one group (`C84_texts_refuted`), and so are
  `a=['x_b','y'], b='z'` and `a='x', b=['y_b','z']` (`C84_joined_refuted`). Its first doctest passes the key as the string `'a'`;
  a longer name, given like that, is taken for the list of its letters, and all sets are in one group (`C84_letters_refuted`).
  `check_param_matches` raises KeyError for a restricted key without a setting (`C84_restricted_refuted`).
* `set_attributes` may fail half-way, with some attributes set (`C85_fails_refuted`). `validate_params` asks `p_val not in req_vals`
  first, so that any part of a required string is accepted, also `''` (`C85_part_refuted`), and a list that is the required value is
  refused (`C85_list_refuted`).
* `make_dirs` gives back the path, as if it were there, when the call for the directory above gives False: `make_dirs('/Users/fred')`
  without `/Users` and without permission is not False, as its doctest wants, but the path (`C86_not_made_refuted`), and
  `make_dirs('/Users/fred/data')` then calls itself with the same path without end (`C86_endless_refuted`). `make_dirs('logs/a')` makes
  nothing if `logs` is new, because the text before the last slash has no slash, and gives False; `make_dirs('logs/a/b')` makes nothing
  and gives the path back (`C86_relative_refuted`, `C86_relative_true_refuted`).
* `get_all_dirs(path, base_dir)` splits at any occurrence of the text of `base_dir`: of `/data/tmp2/x` with base `tmp` it gives
  `['2', 'x']`, it raises ValueError if the text is there twice or, with two slashes, only before normalising, and of the base directory
  itself it gives `['.']` instead of an empty list (`C87_others_refuted`, `C87_self_refuted`).
* `get_array_headers` drops characters of the name: arrays `a-b` and `ab` have the same headers (`C88_apart_refuted`).
* `learners.PTW.get_child_string` leaves out blocks with log probability 0: PTW over KT with a single symbol names no block at all
  (`C89_certain_refuted`). Not modelled,
  because it always raises: `ctw.ProbSeq.prob` calls `logprob`.
* `unzip` takes any file with the uncompressed name for the result (`C90_stale_refuted`). A failed call leaves what it has written, so
  the next call gives this part of the archive as if it were all of it (`C90_second_refuted`, `C90_cut_off_refuted`).
* `get_filepaths(partial=True)` lists only the file with exactly the name in a directory that has one: `log.txt.gz` beside `log.txt` is
  not listed (`C91_hidden_refuted`). Files to ignore are compared as texts (`C91_ignore_refuted`). `confirm_files` is not used.
* `get_best_file_match` raises AttributeError for every list of features, because `remove_modifiers` is called with the list as one
  argument (`C92_lists_refuted`). For one feature it leaves out files without other features (`a-a.txt`) and files with ten or more
  others for each character of the string (`C92_no_others_refuted`, `C92_many_others_refuted`).
* `de_number('12')` and `de_number('')` raise IndexError (`C93_only_refuted`). `file_complete` is true of a file with one of the required
  headers (`C93_one_refuted`); `exception=True` raises NameError for the undefined `rh` (`C93_missing_refuted`), and every number of
  lines raises NameError, because `comment_length` is not defined anywhere (`C93_lines_refuted`, `C93_lines_never_refuted`); for the same
  reason `file_length` and `read_log(skip_rows=None)` raise.
* `Factored.copy` of a Factored in which one model is used for two factors has two separate models (`C94_shared_refuted`). `Dumb` has no
  `copy`, so that `Factored((Dumb(), CTW_KT()))`, its use in the documentation, cannot be copied or be the base of an FMN
  (`C94_dumb_refuted`). By reading: PTW, PTWFixedLength and FMN inherit `Model.copy` and raise NotImplementedError as well.
* A Boolean field without default that is not given leaves no attribute, and `get_arg_string` raises AttributeError
  (`C79_boolean_refuted`).
* The predictions of CTW over PTW (CTW_PTW) sum to more than one on the partition boundaries of the nodes on the path, as a consequence
  of the finding about PTW (`C96_ctw_ptw_predict_refuted`); its updates are a probability measure.
* `ctw.Factorize` ends with `return Factorize` instead of `return Factorized`: what it returns is the function itself, and making an
  object of it raises TypeError (`C97_factorize_refuted`). In the class, `log_predict_seq([])` executes `history[-0:] = []` and forgets
  the whole history (`C97_empty_refuted`), and an exception leaves symbols in the history (`C97_failed_refuted`).
* `utilities.mscb` takes a rounded logarithm: `mscb(2**48 - 1)` is 49 instead of 48 (`C98_mscb_refuted`). `bin_data` cuts at the places
  for 100 values whatever the number of values is: longer data are summed into the last bin and divided by the wrong number
  (`C98_long_refuted`), shorter data raise IndexError (`C98_short_refuted`), more than 100 bins divide by zero (`C98_many_refuted`).
  `get_bin_index` raises NameError for the undefined `bin_bounds` (`C98_bin_index_refuted`).
* `ac.BinaryArithmeticEncoder` sets `_3_4 = top - half`, so that the interval is never widened around the midpoint and may shrink to two
  units. The code stays decodable, but there are models for which most of a bit is lost in every 32, without bound
  (`C100_constant_refuted`); what can be guaranteed is `C100_length`.
* `learners.PTW` inherits `reset`, documented as "Wipe the model entirely", which keeps the base models and the finished parts: update,
  reset, update returns another value than for a new PTW (`C102_ptw_reset_refuted`). `Model.from_sequence` uses the unbound name
  `helpers` and always raises NameError (`C102_from_sequence_refuted`). `learners.SAD.update` uses the undefined `sym`, and
  `SAD.log_predict` the attribute `counts`, which is never set, and the name `math`, which is not imported (`C102_sad_refuted`).
* `ac.BinaryArithmeticEncoder` computes the probability of zero as `1 - exp(update(1))` when it codes a one, the decoder as
  `exp(log_predict(0))`. With floating-point numbers these differ in the last digit, and where range times probability is an integer
  (the first splits of KT are) the intervals differ by one from then on. With KT, 34 bits `0 1 0 1 ...` are decoded to something else even
  if only `exp` is rounded, to the nearest double (`C103_rounding_refuted`); the same happens to most random messages of 50 bits in a
  simulation with binary64. The program would have to ask for the probability of zero before it updates.
* `dicts_exact_match` ("all the items in each dict are identical") is true whenever the second dictionary has the items of the first, so
  the empty dictionary matches every other (`C108_exact_match_refuted`), and raises TypeError for values that are lists
  (`C108_lists_refuted`). `params_to_arg_string` does not quote values with blanks (`C108_arg_string_refuted`). `get_unitizer` takes the
  label -1 for the last class (`C108_unit_negative_refuted`). Not modelled, because it always raises NameError: `logfiles.get_params` uses
  the undefined names `dirname` and `cls`.

## Trusted base

* The kernel of Coq 8.16.1 (`coqc`; the compiled files were also checked with `coqchk`).
* The axioms below. They are all from the standard library (real numbers, functional
  extensionality, classical logic through the real numbers); no axiom was added and no other
  library is used.
* That the model says what the code says: by reading, function by function, with the
  simplifications named in the comment of each definition and in "Numbers, strings, objects".
  The mutation log `seeded/LOG.jsonl` records that changing a definition the way a bug would
  change the program makes the theorems of the affected claims fail.
* Python's own semantics as transcribed in `Model/Py.v`, `Model/PyStr.v`, `Model/PyDict.v`
  (indexing, slices, dictionaries in insertion order, string methods), and for modelfast.py the
  C semantics of the few operations used (`Model/Heap.v`, `Model/ModelFast.v`).

### What `Print Assumptions` lists for each theorem

| set | axioms |
|---|---|
| A0 | none (closed under the global context) |
| A1 | `ClassicalDedekindReals.sig_forall_dec` |
| A2 | `ClassicalDedekindReals.sig_forall_dec`, `FunctionalExtensionality.functional_extensionality_dep` |
| A3 | `ClassicalDedekindReals.sig_forall_dec`, `ClassicalDedekindReals.sig_not_dec`, `FunctionalExtensionality.functional_extensionality_dep` |
| A4 | `ClassicalDedekindReals.sig_forall_dec`, `ClassicalDedekindReals.sig_not_dec`, `Classical_Prop.classic`, `FunctionalExtensionality.functional_extensionality_dep` |

| set | theorems |
|---|---|
| A0 | `C102_from_sequence_refuted`, `C103_until_splits_differ`, `C103_same_splits_safe`, `C103_same_splits_last`, `C108_dir_params`, `C108_arg_string_partial`, `C108_arg_string_refuted`, `C108_membership`, `C108_exact_match_partial`, `C108_match_both`, `C108_exact_match_refuted`, `C108_lists_refuted`, `C108_unit_vector`, `C108_unit_vectors_differ`, `C108_unit_outside`, `C108_unit_negative_refuted`, `C12_all_trees`, `C12_all_trees_nodup`, `C15_context_is_last_symbols`, `C15_context_reversed`, `C15_depth0_whole_history`, `C20_fixed_height`, `C21_all_parts`, `C21_all_parts_nodup`, `C21_segments_tile`, `C22_levels`, `C25_rounds_down`, `C25_power_of_two_partial`, `C25_rounds_up_refuted`, `C27_retained`, `C27_size`, `C27_first_is_newest`, `C27_last_is_oldest`, `C27_learners_same`, `C28_retained`, `C28_getitem_partial`, `C28_last_index_refuted`, `C28_last_index_never_works`, `C28_past_the_end_wraps`, `C29_logstore_law`, `C29_uniform_law`, `C32_log_predict`, `C35_start`, `C35_no_room_never_ends`, `C37_pack_unpack`, `C37_reversed_twice`, `C37_bytes_reversed`, `C38_binary_boundary`, `C38_mscb_divides`, `C38_mscb_highest_change`, `C38_at_partition_start`, `C38_start_and_mscb`, `C39_regions`, `C39_no_labels`, `C40_grid`, `C40_count`, `C40_once`, `C40_combinations`, `C40_no_parameters`, `C41_shared_keys`, `C41_unique_keys`, `C41_shared_values`, `C43_pairs`, `C44_round_trip`, `C44_stable`, `C44_unstable_refuted`, `C44_directory`, `C45_strings`, `C45_concat`, `C45_values_partial`, `C45_keys_refuted`, `C45_errors`, `C45_order`, `C47_half_refuted`, `C47_sample_refuted`, `C47_other_refuted`, `C47_half_partial`, `C47_sample_partial`, `C48_block`, `C48_empty`, `C48_all`, `C48_stream_partial`, `C48_step`, `C48_negative_refuted`, `C48_empty_refuted`, `C50_outer_boundaries`, `C54_texts`, `C54_values_partial`, `C54_empty_refuted`, `C54_short_list_refuted`, `C54_number_string_refuted`, `C54_small_float_refuted`, `C54_de_string_ends`, `C55_round_trip_partial`, `C55_two_numbers_refuted`, `C55_sign_refuted`, `C56_args_partial`, `C56_numbers_refuted`, `C57_number`, `C57_negative_refuted`, `C58_split`, `C58_split_all`, `C58_remove`, `C58_add_partial`, `C58_add_refuted`, `C58_match`, `C59_headers`, `C59_filters_partial`, `C59_filters_last`, `C59_filters_refuted`, `C59_names`, `C63_start_at`, `C66_texts`, `C66_values`, `C66_injective`, `C66_order`, `C66_spelling`, `C67_positional_alone_refuted`, `C67_positional_two_refuted`, `C67_positional_list_refuted`, `C67_positional_underscore_refuted`, `C67_positional_letter_refuted`, `C67_optional_positional_refuted`, `C67_nameless_unset_refuted`, `C67_collision_refuted`, `C67_text_file_refuted`, `C67_sentinel_refuted`, `C67_boolean_text_refuted`, `C67_listable_unset_refuted`, `C67_integers_refuted`, `C68_valid`, `C68_kept`, `C68_missing`, `C68_nargs`, `C68_choice`, `C68_again`, `C68_inherited`, `C68_listable_choices_refuted`, `C70_hallway_context`, `C70_room_context_refuted`, `C70_room_wall_refuted`, `C74_round_trip`, `C74_columns`, `C74_headers`, `C74_saved_headers`, `C74_lines`, `C74_frame`, `C74_skip_comments`, `C74_formatted`, `C74_atomic_refuted`, `C74_any_path_refuted`, `C74_snippets_refuted`, `C74_simplify_refuted`, `C74_any_data_refuted`, `C74_blank_refuted`, `C75_round_trip`, `C75_read`, `C75_text`, `C75_log_file`, `C75_safe`, `C75_frame`, `C75_grows`, `C75_closed`, `C75_check_headers`, `C75_check_headers_refuted`, `C75_iteration_refuted`, `C75_any_path_refuted`, `C75_write_log_refuted`, `C75_write_list_refuted`, `C75_with_refuted`, `C75_frame_refuted`, `C76_run`, `C76_files`, `C76_kept`, `C76_numbered`, `C76_kept_refuted`, `C76_log_dir`, `C76_log_dir_refuted`, `C76_params`, `C76_params_short`, `C76_stats`, `C76_flaked`, `C76_killed`, `C76_no_lines`, `C76_finished`, `C76_finished_refuted`, `C76_table`, `C76_table_fails`, `C76_table_refuted`, `C76_results`, `C76_results_refuted`, `C77_last_bar`, `C78_reads`, `C78_given`, `C78_default`, `C78_order`, `C78_required`, `C78_exclusive`, `C78_refused`, `C78_default_refuted`, `C78_list_default_refuted`, `C78_required_default_refuted`, `C78_optional_refuted`, `C78_others_refuted`, `C78_class_refuted`, `C78_dashes`, `C78_ambiguous`, `C78_flag_value`, `C79_round_trip`, `C79_space_refuted`, `C79_number_refuted`, `C79_negative_refuted`, `C79_exponent_refuted`, `C79_several_refuted`, `C79_unset_refuted`, `C79_directory_refuted`, `C79_inherited`, `C79_boolean_refuted`, `C80_round_trip_partial`, `C80_no_constructor_refuted`, `C80_default_flags_refuted`, `C80_default_flags_field_refuted`, `C80_nameless_struct_refuted`, `C80_same_name_refuted`, `C80_same_class_refuted`, `C80_unset_refuted`, `C81_matches_partial`, `C81_param_partial`, `C81_drop_refuted`, `C81_list_refuted`, `C81_items_partial`, `C81_record_partial`, `C81_entries`, `C81_unset_refuted`, `C81_nested_refuted`, `C81_directory_refuted`, `C81_nargs_refuted`, `C82_save_partial`, `C82_no_other_file`, `C82_own_log_partial`, `C82_load_partial`, `C82_load_refuted`, `C82_load_top_refuted`, `C82_save_given_refuted`, `C82_save_other_refuted`, `C82_data_partial`, `C83_enter_partial`, `C83_last_dir`, `C83_run`, `C83_shared_refuted`, `C83_silent_refuted`, `C83_save_model`, `C83_save_once`, `C83_save_missing`, `C83_exit_adds`, `C83_exit_saves`, `C83_load_memory`, `C83_load_file`, `C83_load_runs`, `C83_load_none`, `C83_own_model`, `C84_partition`, `C84_name`, `C84_values_partial`, `C84_texts_refuted`, `C84_joined_refuted`, `C84_letters_refuted`, `C84_no_keys`, `C84_key`, `C84_required`, `C84_restricted_partial`, `C84_restricted_refuted`, `C85_sets`, `C85_succeeds`, `C85_fails_partial`, `C85_missing`, `C85_fails_refuted`, `C85_names`, `C85_values`, `C85_no_values`, `C85_match`, `C85_part_refuted`, `C85_list_refuted`, `C86_creates_partial`, `C86_keeps`, `C86_already`, `C86_not_made_refuted`, `C86_endless_refuted`, `C86_relative_refuted`, `C86_relative_true_refuted`, `C87_parts_partial`, `C87_parts_text`, `C87_below_partial`, `C87_none`, `C87_self_refuted`, `C87_others_refuted`, `C87_ext_whole`, `C87_ext`, `C88_count`, `C88_header`, `C88_different`, `C88_order`, `C88_apart_partial`, `C88_apart_refuted`, `C89_blocks`, `C89_models_first`, `C89_interval`, `C90_round`, `C90_zip`, `C90_unzip_partial`, `C90_safe`, `C90_there`, `C90_none`, `C90_stale_refuted`, `C90_second_refuted`, `C90_cut_off_refuted`, `C91_exact`, `C91_part_partial`, `C91_once`, `C91_paths`, `C91_none`, `C91_hidden_refuted`, `C91_hidden_ex_refuted`, `C91_ignore_refuted`, `C92_there_partial`, `C92_zipped_partial`, `C92_search_partial`, `C92_extras`, `C92_lists_refuted`, `C92_no_others_refuted`, `C92_many_others_refuted`, `C93_number`, `C93_dash`, `C93_no_number`, `C93_headers`, `C93_headers_same`, `C93_headers_all`, `C93_exists`, `C93_all_partial`, `C93_complete_partial`, `C93_only_refuted`, `C93_one_refuted`, `C93_lines_refuted`, `C93_lines_never_refuted`, `C93_missing_refuted`, `C97_factorize_refuted`, `C98_bin_index_refuted` |
| A1 | `C04_dumb_agrees`, `C04_factored_agrees`, `C32_update_partial`, `C32_weight_never_matters`, `C33_empty_erases`, `C97_empty_refuted`, `C97_failed` |
| A2 | `C103_complements_safe`, `C106_kt_agrees`, `C106_ctw_agrees`, `C32_total`, `C32_dumb`, `C33_update_seq_partial`, `C33_log_predict_seq_partial`, `C33_split`, `C42_discounted`, `C42_bellman`, `C42_horizon`, `C42_defaults_refuted`, `C43_tiles_partial`, `C43_default_fits`, `C43_range_exact`, `C43_range_refuted`, `C43_same_tile`, `C43_resolution`, `C43_coder`, `C46_schedule_partial`, `C46_any_schedule`, `C46_unordered_refuted`, `C46_calls`, `C46_bias_refuted`, `C46_call_after_refuted`, `C51_running_mean_partial`, `C51_window_one_refuted`, `C51_running_mean_error`, `C51_trace_accumulating`, `C51_trace_replacing`, `C51_trace_between`, `C52_scale_default`, `C52_scale_given`, `C52_scale_val`, `C52_constant_refuted`, `C53_all_approx`, `C53_precision`, `C53_precision_refuted`, `C64_source`, `C65_by_leaf`, `C70_stream`, `C70_switcher`, `C70_switcher_never`, `C72_same_number`, `C77_reading`, `C77_bar`, `C97_routes`, `C97_runs`, `C97_update_seq`, `C97_log_predict_seq`, `C98_argmax`, `C98_argmax_any`, `C98_bins_partial`, `C98_long_refuted`, `C98_short_refuted`, `C98_many_refuted`, `C98_no_bins` |
| A3 | `C12_tree_prior`, `C21_part_prior`, `C21_part_prob_segments`, `C32_lawful`, `C33_total_probability`, `C34_round_trip_safe_partial`, `C34_round_trip_last_symbol_partial`, `C34_round_trip_moderate_partial`, `C36_quantisation`, `C63_scores`, `C63_scores_lower` |
| A4 | `C01_logsumexp`, `C01_logsumexp2`, `C01_logsumexp_in_range`, `C01_logsumexp2_in_range`, `C01_logsumexp_order`, `C01_logsumexp_empty`, `C01_helpers_log_sum_exp`, `C01_c_logsumexp2`, `C01_c_logsumexp`, `C02_kt_distribution`, `C02_kt_distribution_counts`, `C03_kt_closed_form`, `C03_kt_exchangeable`, `C04_kt_agrees`, `C04_ktbinary_agrees`, `C04_sad_agrees`, `C04_averager_agrees`, `C04_ctw_agrees`, `C04_ctw_mkcontext_agrees`, `C04_ctwkt_agrees`, `C05_kt_redundancy_prob`, `C05_kt_redundancy`, `C05_ktbinary_redundancy`, `C06_ktbinary_is_kt`, `C07_sad_normalised`, `C07_sad_all_seen_deficit`, `C07_sad_always_normalised_refuted`, `C07_sad_outside_raises`, `C07_sad_closed_form`, `C08_averager_mixture`, `C08_averager_normalised`, `C08_averager_duplicates_refuted`, `C09_averager_regret`, `C10_averager_map`, `C100_length`, `C100_zip`, `C100_zip_kt`, `C100_zip_ptw`, `C100_zip_fmn`, `C100_constant_refuted`, `C101_exact`, `C101_logsumexp`, `C101_any_models`, `C101_prediction`, `C101_nests`, `C101_ctw`, `C101_ptw`, `C102_kt_account`, `C102_kt_predict`, `C102_kt_reset`, `C102_ptw_account`, `C102_ptw_predict`, `C102_ptw_distribution`, `C102_ptw_reset_refuted`, `C102_sad_refuted`, `C103_rounding_refuted`, `C104_ptw`, `C104_ptw_fixed_length`, `C104_ctw_ptw`, `C104_ptw_work`, `C104_fmn_logstore`, `C104_fmn_uniform`, `C104_ctw`, `C104_ctw_most`, `C104_ctwkt`, `C104_ctwkt_most`, `C105_exact`, `C105_any_base`, `C105_kt`, `C105_kt_uniform`, `C105_ctw`, `C105_drift`, `C106_exact_kt`, `C106_exact_init`, `C106_exact_ctw`, `C106_kt`, `C106_ctw_any_base`, `C106_ctw_follows`, `C106_ctw`, `C106_ctw_predict`, `C106_ptw`, `C106_fmn`, `C107_ptw_follows`, `C107_total`, `C107_values`, `C107_ptw_predict`, `C109_coder`, `C109_follows`, `C109_kt`, `C109_ptw`, `C109_fmn`, `C109_fmn_competes`, `C109_fmn_drift`, `C11_ctw_recursion`, `C110_learner`, `C110_ptw`, `C110_fmn`, `C110_ctw`, `C110_ptw_ctw`, `C110_fmn_ctw`, `C111_kt_learns`, `C111_sad_learns`, `C111_ctw_any`, `C111_ctw`, `C111_ctw_sad`, `C111_ptw_ctw_any`, `C111_fmn_ctw_any`, `C111_ptw`, `C111_fmn`, `C111_fmn_ctw`, `C111_fmn_ctw_sad`, `C111_kt_rounded`, `C111_fmn_ctw_rounded`, `C112_ctw`, `C112_ctw_episodes`, `C112_ctw_kt`, `C112_ctw_sad`, `C112_ptw`, `C112_fmn`, `C112_learners_ptw`, `C112_ptw_kt`, `C112_fmn_kt`, `C112_learners_ptw_kt`, `C112_fmn_sad`, `C113_learner`, `C113_kt`, `C113_kt_measure`, `C114_learns`, `C114_ctw_kt`, `C114_ptw`, `C114_fmn`, `C114_fmn_ctw_kt`, `C114_factorized`, `C114_factorized_kt`, `C114_factorized_sad`, `C115_learns`, `C115_ptw`, `C115_fmn`, `C115_ctw_kt`, `C115_fmn_ctw_kt`, `C12_ctw_mixture`, `C12_ctw_regret`, `C13_ctw_distribution`, `C14_log_predict_transparent`, `C14_calls_succeed`, `C15_ignores_older`, `C15_depth0_refuted`, `C16_size_counts_nodes`, `C16_copy_size_refuted`, `C16_fast_size_refuted`, `C17_ctwkt_is_ctw`, `C17_fast_is_ctwkt`, `C17_fast_is_ctw_over_kt`, `C18_ctw_copies_deep`, `C18_ctwkt_copies_deep`, `C19_memory_safe`, `C19_no_leak`, `C19_shared_nodes_unmodified`, `C19_unchecked_symbols_refuted`, `C20_ptw_fixed_recursion`, `C20_promotion_literal`, `C21_ptw_mixture`, `C21_ptw_regret`, `C21_ptw_changepoints`, `C22_ptw_update_ratio`, `C22_ptw_update_normalised`, `C22_ptwf_update_normalised`, `C23_ptw_unknown_length`, `C24_ptw_log_predict_partial`, `C24_ptwf_log_predict_partial`, `C24_ptw_boundary_not_normalised`, `C24_ptwf_boundary_not_normalised`, `C24_ptw_log_predict_refuted`, `C26_ctw_recursion`, `C26_ctw_log_predict`, `C26_ctw_full`, `C26_learners_recursion`, `C26_learners_log_predict`, `C26_learners_full`, `C26_learners_memory`, `C26_learners_full_predict`, `C29_fmn_total`, `C29_fmn_update_normalised`, `C29_fmn_log_predict_between`, `C29_fmn_boundary_not_normalised`, `C30_offered`, `C30_logstore_retains`, `C30_uniform_retains`, `C31_fmn_competes`, `C32_weight_refuted`, `C33_update_seq_refuted`, `C33_log_predict_seq_refuted`, `C34_decompress_never_returns_refuted`, `C34_lossless`, `C35_encode_progress`, `C35_compress_total`, `C36_code_length`, `C37_byte_round_trip_refuted`, `C49_ctw_kt_same`, `C49_learners_kt_same`, `C60_same_as_model`, `C60_external_history`, `C60_reset_history`, `C60_recursion`, `C60_log_predict`, `C60_distribution`, `C60_transparent`, `C60_update_seq`, `C60_log_predict_seq`, `C61_sad_same`, `C61_averager_same`, `C61_running_totals`, `C61_mixture`, `C61_regret`, `C61_log_predict`, `C61_distribution`, `C61_map`, `C61_recomputed`, `C61_recomputed_refuted`, `C61_ptw_member_refuted`, `C61_ctw_member_refuted`, `C61_half_refuted`, `C62_total`, `C62_full`, `C62_distribution`, `C62_log_predict`, `C62_offered`, `C62_logstore`, `C62_competes`, `C63_map_partial`, `C63_fixed_map_partial`, `C63_ctw_map_partial`, `C63_map_refuted`, `C64_ptw_drift`, `C64_ptwf_drift`, `C64_fmn_drift`, `C65_ctw_tree_source`, `C69_same_states`, `C69_mixture`, `C69_map`, `C69_log_predict_joint`, `C69_predictions_total`, `C69_distribution_refuted`, `C69_reset`, `C69_reset_refuted`, `C71_ctw`, `C71_fmn`, `C72_exact`, `C72_logsumexp2`, `C72_ctw`, `C72_predict`, `C72_rounding`, `C73_exact`, `C73_any_base`, `C73_kt`, `C73_ctw`, `C77_compress`, `C77_lossless`, `C77_size`, `C77_default_refuted`, `C77_common_refuted`, `C77_unknown`, `C77_bad_depth`, `C77_missing`, `C77_uncompress_refuted`, `C77_uncompress_key`, `C77_empty_refuted`, `C77_same_file_refuted`, `C77_huge_refuted`, `C77_clock_refuted`, `C89_children_partial`, `C89_models`, `C89_kt`, `C89_whole`, `C89_certain_refuted`, `C94_deep`, `C94_leaves`, `C94_factored`, `C94_averager`, `C94_shared_refuted`, `C94_dumb_refuted`, `C95_deep`, `C95_deep_uniform`, `C95_snapshots`, `C95_snapshots_uniform`, `C96_ptw`, `C96_fmn`, `C96_ctw_learns`, `C96_ptw_ctw`, `C96_fmn_ctw`, `C96_ctw_ptw`, `C96_ptw_ctw_measure`, `C96_ctw_ptw_measure`, `C96_ctw_ptw_predict_refuted`, `C97_ctw`, `C97_ctw_log_predict`, `C97_ctw_distribution`, `C97_failed_refuted`, `C98_mscb`, `C98_mscb_error`, `C98_mscb_refuted`, `C98_log_sum_exp`, `C98_log_sum_exp_empty`, `C99_kt`, `C99_sad`, `C99_runs` |
