# Formal model of wisardpkg in Rocq (Coq 8.16.1)

The model is a function-by-function Gallina transcription of the C++ core in `/repo/src`
(common, data, models/wisard, models/cluswisard, synthetic_data, binarization, wrappers).
Every definition cites the file and lines it models.

## Modelling conventions

* **Outcomes.** A C++ call is `Ok v`, `Throw e` (a C++ exception, with its kind), `UB u` (undefined
  behaviour: out-of-bounds access, signed overflow, division by zero, uninitialised read, ...) or `Hang`
  (non-termination, or a loop whose fuel ran out). Undefined behaviour is never assumed away.
* **Mutators** return `res A * state`; the state accompanying a `Throw` is the object as the caller of a
  `catch` finds it (partial updates included).
* **Integers** are `Z`; `int` results are range checked (overflow = `UB`), `addr_t` arithmetic is written `mod 2^64`.
* **char / std::string** are Coq `ascii` / `list ascii`; promotion to int uses the signed reading (x86-64 gcc/clang).
* **std::map** is a std++ `gmap` iterated in sorted key order; **std::unordered_map** is a `gmap` whose
  iteration order is an arbitrary oracle `iter` (any permutation of the entries): theorems quantify over it.
* **Randomness** (`rand`, `random_shuffle`) is an oracle: theorems quantify over every draw and permutation; seeding is modelled separately in `Rand.v`.
* **float** is IEEE binary32 through the standard library's `SpecFloat` (round to nearest even).
* **JSON** values are trees (`Json.v`); the texts are modelled in `JsonText.v`, where `parse(dump j)` is proved to be what `Json.retext` says (C107).
* **Files** are a finite map from names to contents, plus an oracle telling which names can be opened.

## Files

Model files contain only definitions; `Spec*.v` the small independent specifications; `*Proofs.v` lemmas;
`Props*.v` only property theorems (closed by `exact`), non-vacuity examples and `Print Assumptions`.

## Property plan

| id | property | model and proof method |
|---|---|---|
| C01 | Base64 round trip | Base64.v model of encode/decode over bytes; arithmetic characterisation of masks, induction on 3-byte chunks |
| C02 | Base64 text is RFC 4648 | independent bit-level RFC 4648 spec in SpecBase64.v; induction on chunks |
| C03 | Base64 text never contains a separator | corollary of C02 |
| C04 | Base64::decode is memory safe on any text | decode models every access with an UB outcome; safe for length = 4k>0 (partial), refuted in general |
| C05 | BinInput set/get law | BinInput.v; bit-level lemmas by sweep over all bytes and offsets |
| C06 | BinInput built from a list holds that list | induction on the list |
| C07 | BinInput rejects indices out of range | case analysis |
| C08 | BinInput serialisation round trip | C01 + record equality |
| C09 | Writing one index never disturbs another | refuted by a computed witness |
| C10 | DataSet is an append-only labelled list | fold over add calls |
| C11 | DataSet save/load round trip | file system as finite map; getline splitting lemma |
| C12 | DataSet save/load works for every data set | refuted by witnesses |
| C13 | RAMDataHandle text round trip | RAM as gmap, arbitrary iteration order oracle (permutation of entries); little-endian byte lemmas + C01 + splitting |
| C14 | RAMDataHandle set/get law | gmap laws |
| C15 | RAMDataHandle.compare is content equality | gmap extensionality |
| C16 | Reading a RAMDataHandle does not change it | refuted: witness + divergence of data() |
| C17 | Integer power helper is exact | loop invariant of square-and-multiply with overflow = UB |
| C18 | Default (shuffled) addressing covers the entry | shuffle = arbitrary permutation oracle, draws arbitrary |
| C19 | Explicit index list lays out RAMs in order | firstn/skipn layout |
| C20 | Explicit mapping is used verbatim | by construction |
| C21 | Constructor parameter validation | exact iff characterisation |
| C22 | Address space limit is enforced for every base | refuted; never throws for base<>2 |
| C23 | Index list validation rejects every bad index | refuted (negative index) |
| C24 | Mapping validation rejects out-of-range positions | refuted (UB outcome) |
| C25 | Different patterns never share a RAM address | positional notation is injective below 2^64 |
| C26 | Votes count matching training images | abstraction relation RAM contents = multiset of seen patterns; induction over history |
| C27 | Votes after mixed train/untrain histories | same with signed history |
| C28 | Untraining undoes training | algebra on RAM contents |
| C29 | Training order is irrelevant | from C26 (permutation invariance of counting) and gmap equality |
| C30 | Votes are bounded and monotone | from C26 |
| C31 | Entry size guard | case analysis |
| C32 | Pixel guard | induction over RAM loop |
| C33 | A rejected training image leaves no trace | refuted + exact partial effect |
| C34 | Pixels outside [0,base) are rejected | refuted |
| C35 | Training counter | history induction |
| C36 | Mental image counts active pixels | sum exchange over stored addresses; digits of address recover pixels |
| C37 | Mental image is right for every accepted address size | refuted with 32-bit address |
| C38 | BinInput and list images are interchangeable | equality of image denotations |
| C39 | Counters never overflow | refuted: INT_MAX trainings reach UB; safe below |
| C40 | Bleaching stops, at the least sufficient threshold | fuelled do-while; threshold minimality by induction; fuel never exhausted |
| C41 | Without bleaching every non-zero vote counts once | unfolding |
| C42 | Winner has the highest count | fold invariant over sorted labels |
| C43 | With confidence 1 a decided winner is unique | from C40 |
| C44 | confidence is the guaranteed margin | refuted |
| C45 | searchBestConfidence does not affect classification | equality of code paths |
| C46 | Wisard classification is determined by the labelled histories | refinement to per-label histories |
| C47 | Labels are isolated | frame lemmas on gmap |
| C48 | Order of training examples is irrelevant to Wisard | commutation |
| C49 | Batch argument guards are atomic | case analysis |
| C50 | A failing batch keeps exactly the examples before the failure | batch splitting |
| C51 | Training on an empty batch is a no-op or an error, never undefined | refuted |
| C52 | A rejected first example of a new label leaves the model usable | refuted for LHS-first evaluation; proved for RHS-first |
| C53 | leaveOneOut of an unknown label is a no-op | case analysis |
| C54 | Wisard mental images | from C36 |
| C55 | Queries never change the model | step machine |
| C56 | DataSet training equals list training | C38 lifted to batches |
| C57 | Discriminator json round trip | JSON tree model; record equality after reload |
| C58 | An untrained discriminator can be saved and reloaded | refuted |
| C59 | jsonConfig can be reloaded | refuted |
| C60 | Wisard json round trip | record equality up to non persisted options |
| C61 | Every option survives the Wisard json round trip | refuted |
| C62 | Huge mode round trip | file system model |
| C63 | Huge mode never loses data silently | refuted with open failure |
| C64 | Cluster size limit | invariant |
| C65 | Every accepted image is learned | case analysis on the training loop |
| C66 | Cluster training decision rule | exact rule restated on IEEE binary32 (SpecFloat) |
| C67 | Score range | Flocq correctness of SpecFloat operations |
| C68 | ClusWisard classify returns a trained label | string lemma on '::' |
| C69 | ClusWisard classify returns the trained label for every label text | refuted |
| C70 | Semi-supervised training uses the unlabelled images | refuted |
| C71 | Semi-supervised training is memory safe | refuted |
| C72 | trainUnsupervised accumulates | refuted |
| C73 | trainUnsupervised works after supervised training | refuted (uninitialised) |
| C74 | trainUnsupervised honours base | refuted |
| C75 | ClusWisard json round trip | record equality |
| C76 | Asking for a mental image does not change the model | refuted |
| C77 | Synthesizer output law | explicit cube model |
| C78 | Synthesizer is total | refuted (rand()%0) |
| C79 | KernelCanvas activates the nearest kernels | binary64 arithmetic from SpecFloat, tanh any function, std::sort any permutation meeting its contract; NaN analysis shows the comparison is a strict weak order |
| C80 | KernelCanvas direction mode is memory safe | refuted (out of bounds write) |
| C81 | Number of RAMs helper agrees with construction | arithmetic |
| C82 | Fixed width integers round trip through bytes | div/mod induction |
| C83 | Learning law of a cluster | relational specification on image histories; step lemma + induction |
| C84 | Learning law of ClusWisard | refinement: every call is a sequence of given/guessed events of the specification |
| C85 | A failed ClusWisard train call leaves the model usable | refuted for LHS-first evaluation; proved otherwise |
| C86 | Learning law of unsupervised training | from C83 plus bleaching lemmas |
| C87 | ClusWisard json(true,path) keeps everything in files | list of files written; injectivity of file names; new files read back |
| C88 | KernelCanvas constructors agree | member dim as option (None = uninitialised) |
| C89 | KernelCanvas validates its parameters | case analysis |
| C90 | Activation count | Flocq: rounding is monotone and exact on integers up to 2^24 |
| C91 | No more activations than kernels | refuted by 16777219 kernels; Flocq bound |
| C92 | Rows of the wrong length are rejected | refuted for short rows; induction on the rows for long ones |
| C93 | A non-empty sequence switches something on | refuted by computing the default degree; corollary of C79 |
| C94 | Python classify agrees with C++ classify | equality of code paths; case analysis on the eight option combinations |
| C95 | Classifying an empty batch | refuted (UB outcome) |
| C96 | Activation degree of Wisard | invariant on the number of RAMs over call histories; Flocq: correctly rounded division |
| C97 | Confidence of Wisard | refuted by computation; fold invariant of the runner-up scan, Flocq |
| C98 | Class degrees of Wisard | exact float sums up to 2^24; sorted keys |
| C99 | Activation degree of ClusWisard | invariant on clusters over call histories; Flocq |
| C100 | Confidence and class degrees of ClusWisard | refuted by computation; as C97, C98 |
| C101 | RAMDataHandle shows what a discriminator learned | composition of the save and handle round trips, memory and file |
| C102 | Keyword arguments of the Python constructors | each keyword step touches one field; invariant over the argument loop; lookup in the JSON object |
| C103 | getsizeof grows by 12 bytes per learned pattern | sizeof constants as a parameter; size of the content map = number of distinct patterns by the history invariant; monotonicity of every call on all outcomes |
| C104 | Training never makes a ClusWisard smaller | refuted by computation; monotonicity of the labelled calls |
| C105 | ClusWisard validates its parameters | refuted for NaN; comparisons related to real numbers through Flocq |
| C106 | ClusWisard argument guards fire before anything is learned | unfolding the guards, size conversions |
| C107 | A saved text is read back character by character | `JsonText.v` models dump, the lexer and the parser; `TextParse.dump_parse` shows by induction on the value that the dumped text parses to `retext` of it; with it the value-level round trips become round trips of texts (`TextApi.v`). |
| C108 | Any text given to a constructor yields an object or an exception | refuted by a discriminator text with 13 Base64 characters; partial: totality of lexer and parser (`TextTotal.v`, the fuel is enough), size of the parsed value, and outcome of each loading loop by induction with a predicate on JSON values preserved by merge_patch (`ReloadTotal.v`, specification in `SpecReload.v`). |
| C109 | A truncated saved text is refused | locality of lexer and parser (`TextPrefix.v`): success on a prefix p means success on p ++ q with q left over, but the whole text leaves nothing. |
| C110 | A saved text with anything but white space appended is refused | same locality lemma; refuted by a zero character. |
| C111 | The halving bleach search stops at the first threshold of its sequence that breaks the tie | induction over the rounds: in round n the threshold is the n-th of the sequence; the tie test is related to the counts by induction over the scan |
| C112 | The halving bleach with bleaching off counts the RAMs that answered | refuted by computation; the threshold is B/2 |
| C113 | A fractional number is written so that the same number is read | `Grisu.v` models diyfp arithmetic, boundaries, cached powers (each table entry checked against the exact power of ten), digit generation and rounding with 64 bit wrap-around; `GrisuProofs.v` shows that the digits lie strictly between the two midpoints, in rationals. |
| C114 | A label can be saved exactly if it is UTF-8 | `SpecUtf8.v` defines UTF-8 by div and mod; the automaton is shown to accept exactly that, by a check of its transitions over the 256 bytes and induction over the text. |
| C115 | Whatever was loaded can be saved again | `ParseValues.v`: invariant of lexer and parser (strings UTF-8, integers of 64 bits, finite doubles, ascending keys), then C107. |
| C116 | A data set file that was only partly written is noticed | `Crash.v`: save of which the first k bytes reach the file; `CrashProofs.v`: a cut of joined fields is the whole fields before it and a prefix of the next; `SpecCrash.v` says how many fit in k bytes. |
| C117 | A RAM data file that was only partly written is noticed | as C116, with the RAM fields: a prefix of a base64 text without padding decodes to a prefix of the blocks or reads past the end. |
| C118 | Which texts Base64 decoding reads safely | `SpecDecode.v` gives the four cases; `DecodeIff.v` proves them by induction over the groups of four, tracking the room left in the result. |
| C119 | Clusters do not interfere with each other | `Heap.v`: clusters as maps of pointers into a heap of discriminators, next to the clusters by value of `Cluster.v`; `HeapProofs.v`: simulation between the two, with the invariant that no two clusters share a discriminator. |
| C120 | A copy of a cluster is independent | refuted by computation (the copy shares the discriminators); what the copy answers is proved exactly, by induction over the train calls. |
| C121 | No destroyed discriminator is ever used | `HeapSafe.v`: invariant over all programs, copies included. |
| C122 | Destroying a cluster releases its discriminators | refuted: no step ever removes a discriminator; the number left behind is bounded by the train calls. |
| C123 | A missing file is reported | refuted by computation; the outcome for every file system without the file follows by unfolding the loaders of `DataSet.v`, `RamData.v`, `Disc.v`. |
| C124 | Calls of make() sample afresh | `Rand.v` threads the state of a generator (any seeding function, any step function) through the calls; refuted for every generator; the law of C77 holds for every clock. |
| C125 | Models built one after the other draw different mappings | as C124; the GNU random_shuffle is shown to permute (`RandProofs.v`), so that C18 applies to every generator. |
| C126 | Different models are saved to different files | as C124; `RandSave.v` reads the file to which two saves were appended. |
| C127 | A RAM with random addresses watches several pixels | as C124, by induction over the addresses. |
| C128 | Mental images of a ClusWisard | `ClusMental.v`: the state invariant behind C84 gives each discriminator its learned images; C36 gives its mental image. |
| C129 | Leaving examples out and training them again restores the classifier | `LeaveOut.v`: the cell of an address after leaving out and retraining (`cell_restored`, by induction over the fold), lifted to labels with the history invariant of C46; retraining a known label makes no random choice. |
| C130 | A left-out example leaves no trace | refuted by the only example of a label (the label stays a candidate and wins ties); partial: same votes, counts and classes when the wiring is configured and every label keeps an example; for one Discriminator without that condition. |
| C131 | Labels of a ClusWisard do not interfere | frame lemmas for labelled, semi-supervised and unsupervised calls (ClusIso.v). |
| C132 | With one discriminator per label ClusWisard is Wisard | refuted by labels "1" and "10" (keys "label::0" are ordered differently, ties go to the other label); partial: simulation of the two training loops with the same random choices, and invariance of the bleaching rule under an order preserving renaming of the labels (ClusOne.v). |
| C133 | Options given as JSON are taken as written or refused | refuted by 4294967299 read as 3; partial: relational reading of every option kind (SpecJsonOptions.v), proved equivalent to the constructors (JsonOptionsProofs.v); parsed texts have no repeated names (TidyProofs.v). |
| C134 | A loaded ClusWisard has a configuration its constructor accepts | refuted by a text with minScore 7; partial: valid exactly when the values in the text are. |
| C135 | The images of a batch are answered independently | classification is a map over the batch: success and failure are characterised element by element. |
| C136 | Training images are recalled | refuted by an image covered by two images of another label; partial: from the law C46, the votes of the own label are all positive, and a pixel that separates another label starves one of its RAMs (Recall.v). |
| C137 | Seeing the same examples again changes nothing | k more copies multiply every vote by k+1; the bleaching rule is invariant under scaling (thresholds b and ceil(b/(k+1)) count the same RAMs) (Repeat.v). |
| C138 | Answers are trained labels | from the law C46. |
| C139 | Labels are only names | refuted by a tie; partial: step-by-step simulation of all calls under the renaming, and the bleaching rule under an order preserving renaming (Rename.v, ClusOne.v). |
| C140 | Pixel positions have no meaning of their own | agreement of images on the addresses of a RAM is invariant when both are moved, so the votes owed by C46 are equal (Move.v). |
| C141 | The output of KernelCanvas reflects the data | refuted: equal values give deviation 0, hence 0/0, NaN distances and one output for all such data (KernelDead.v, Flocq); partial: whole-number columns holding two values have positive finite deviation, and then the order is a real one (KernelSpread.v). |
| C142 | The order of the training examples does not matter to ClusWisard | refuted by four examples in two orders (vm_compute); partial: a call keeps one independent slot per label, so any interleaving with the same per-label order ends in the same map (ClusOrder.v). |
| C143 | Any wiring can be drawn at random | refuted by counting: the seed takes 100001 values, the proper wirings number e! (pigeonhole on the list of all permutations, Wiring.v); partial: the shuffle reaches every permutation, by induction on its swaps. |
| C144 | verbose reports progress and nothing else | model of the text written to std::cout (Verbose.v) whose first component is proved equal to the quiet model; one induction over the shared loop gives the text; refuted for train(DataSet). |
| C145 | Reporting options do not influence learning or answers | commutation of every call with changing the four flags (Reporting.v), by induction over histories. |
| C146 | A saved text is determined by the model | Two saves may differ in the iteration oracle, the random file name and the file system. disc_json_text is put in closed form (fixed prefix, dotted records, fixed suffix) using the serializer model of JsonText.v; base64 of a concatenation of 12-byte records is the concatenation of the base64 of each. Faithfulness from C107. |
| C147 | A saved text may be rewritten as JSON allows | SpecGrammar.v states RFC 8259 as inductive relations between texts and values (strings with all escapes and UTF-8, numbers, arrays, objects whose first member of a name counts), independently of the scanner. Completeness of JsonText.json_parse by mutual induction over the derivation; with C107 every JSON text of a saved value reloads the model. |
| C148 | Only JSON texts are read | soundness of JsonText.json_parse by induction over the steps of the parser, from the soundness of the scanner's tokens; with C147 an exact characterisation of the accepted texts |
| C149 | Synthetic images stem from the training images of their label | The composition getMentalImages -> Synthesizer -> classify. The mental-image law of C54 and the output law of C77 are combined: the law is zero at a pixel no trained image of the label had on, even after leaving out; with each pixel wired once the intensities are the counts of images, so draw k shows the pixels on in more than k images. |
| C150 | A synthetic image is recognised as the label it was made from | Counterexample by computation; the partial theorem from C149's threshold law (all counts are 0 or the number of images) and the recall theorem C136. |
| C151 | Pixel values are only names | Run the original and the renamed history in lock step: the wirings stay equal (they depend on options, draws and sizes only), agreement of two images on the inputs of a RAM is preserved and reflected by an injective renaming, so votes_owed (C46) is equal. Recode.v. |
| C152 | Pixel values are only names to ClusWisard | Renamed images step by step: a simulation relation between the two models (same shape, same counts, cells correspond through the renaming), preserved by every call including failing ones, with the scan of votes that chooses the discriminator giving the same votes. |
| C153 | Learning reinforces | Votes of l rise, all others stay (monotone simulation through RAM, discriminator and Wisard, for failing calls too); at thresholds below the old one the ambiguity persists unless l is the unique top; at the old one l stays the winner and the counts stay settled. |
| C154 | A ClusWisard recalls its training images | Invariant over the C84 learning law (which images each discriminator has seen, at most one discriminator at limit 1), the vote law and injectivity of label::number keys; refutation by two concrete histories. |
| C155 | The discriminators limit matters only when reached | Lock-step simulation of the two runs, for arbitrary images, labels and states: every training step takes the same branch as long as no label would exceed the smaller limit; counts only grow within a call. |
| C156 | Training in portions is training at once | Equation between one call and two, by induction on the loop; the options the checks read are invariant. |
| C157 | KernelCanvas feeds Wisard | Composition of C79 (shape of the transform), C46/C138 (learning law, known labels) and C136 (full count). |
| C158 | The labels of a ClusWisard are only names | Rename the keys of the cluster map with kmap; votes are renamed by the function that renames the part before the last '::' (injective); the bleaching rule commutes with order preserving renamings (section Rename of ClusOne.v); simulation of every call. |
| C159 | Pixel positions mean nothing to randomly wired classifiers | SpecMoveRandom.v (replayed calls with other random choices); MoveSim.v shows each shuffle of 0..n-1 can be followed by the permutation and is again a possible shuffle, and relates the RAMs and discriminators; MoveLockstep.v lifts that through Wisard and ClusWisard calls, failing ones included; PropsMoveRandom.v states the theorems. |
| C160 | Similar images get similar votes | SpecNear.v (differing positions, spare inputs); Near.v: a RAM whose pixels agree votes alike, RAMs touched are bounded by wires, wires by distinctness or covering of the wiring; PropsNear.v lifts it through the laws of C27 and C46. |
| C161 | Examples of one label only win or lose answers for that label | SpecOnly.v (calls about one label); PropsOnly.v: such calls leave the other discriminators alone (C47, C131), so the candidate counts of other labels stay and the winner can only move from or to L; a concrete three-label history refutes it with bleaching. |
| C162 | Pixels no RAM reads do not matter | SpecUnread.v: reads (the pixels the RAMs of a label look at: its mapping if trained, else what the options will give), same_to, same_call. PropsUnread.v: a discriminator in any state sees only its mapping; for a Wisard in any state the invariant 'reads only what the start promised' is kept by every call, so matching histories are equal call by call. |
| C163 | Damage to one label's file concerns that label only | PropsDamage.v: loading the classes one by one (load_any) and what each label's own file gives; f2 is an arbitrary later file system. The same file proves C117 and C123 for a Wisard. ClusWisard: the text written (ClusDamage.v, clus_text) and load_slots/load_labels over its slots; PropsClusDamage.v. |
| C164 | bleachingActivated and confidence only select the votes that count | SpecBleach rule: settled is antitone in the confidence and tallies are antitone in the threshold; learning commutes with changing the two options (PropsConfidence). |
| C165 | The clusters of a loaded ClusWisard have its configuration | Inversion of the loading code; merge_patch of the configuration overrides the members of each cluster (PropsLoaded). |
| C166 | Learning is additive | count_if over an append is a sum: C26/C36/C54's laws applied to three runs; PropsAdd.v. |
| C167 | Among labels wired alike, more examples mean more votes | PropsDominate.v: with the same wiring, the votes of C46 are monotone in the multiset of examples, so are the tallies at every threshold; the winner is a label with the highest tally, the lexicographically greatest such. |
| C168 | Threads working on different labels do not interfere | PropsThreads.v: the effect of a call on its labels depends on the options and these labels only, so calls with disjoint labels commute, whatever their outcome; any two schedules of the same threads are connected by such exchanges. Same labels: schedules are permutations, C48. |
| C169 | The address space bounds the size of a model and of its saved text | From C103 (12 bytes for every distinct pattern) and C57: the patterns of a RAM of k positions in base b, read as numbers, are distinct numbers below b^k, so at most min(images, b^k) of them; the same for the saved text at 16 characters each. PropsBounded.v. |
| C170 | Copies of one image stay in one discriminator | From the law of learning (C83) and the score law (C67): all RAMs of the one discriminator give the same vote, the score is exactly 1, and min(1, minScore + count/threshold) is at most 1. Induction over the history. PropsCopies.v. |
| C171 | An image nobody knows is answered with the last label | From the vote law (C46, C84): no agreeing training image means a vote of 0 in every RAM, so every count is 0 at every threshold and the winner is the greatest name (C42). PropsUnknown.v. |
| C172 | A dictionary that names every image is a list of labels | The exact form of semi-supervised training (C71) with a dictionary of keys 0..n-1: the labelled images are all of them in order, none is left for the second loop. Induction over the batch. PropsDict.v. |
| C173 | No list of images makes a Wisard run into undefined behaviour | Invariant (wiring inside the entry size, counters and stored counts within the number of images handed over) over runs that go on after exceptions (outcomes), for every call; classification through bleach_terminates. |
| C174 | No list of images makes a ClusWisard run into undefined behaviour | Invariant over runs that go on after exceptions: every slot of every cluster holds a discriminator whose wiring stays inside its entry size and whose counts are within the images handed over; the scan, creation and training of one image keep it; votes then stay below the bleaching bound. |
| C175 | Mental images are defined for every model images can bring about | States as in C173/C174 (programs that go on after exceptions). Invariant strengthened: the contents of each RAM, added up without signs, are at most the number of images handed over; each pixel of the mental image then stays within that number times its inputs, for every enumeration order. For the default wiring, every discriminator comes from a shuffled wiring, which wires a pixel at most once (at most addressSize times if completed). |
| C176 | A model that survived failing calls can be saved, loaded and used | refute with a concrete program whose first image has an invalid value; for the rest: invariants through arbitrary programs with failing calls - keys of RAMs stay 64-bit, values stay ints (weights, from C173), an answered training call leaves every RAM of its labels non-empty and nothing empties them - and the round trip of C60. |
| C177 | Saving and loading between sessions changes nothing | sessions as a fold of programs with failing calls, saves and loads; by induction over the sessions, using C176's round trip after every prefix of the uninterrupted program and that outcomes of concatenated programs compose. |
| C178 | Saving and loading a ClusWisard between sessions changes nothing | sessions as a fold of programs, saves and loads; by induction over the sessions, with C75's round trip for every prefix of the uninterrupted program and the composition of runs. |
| C179 | A Discriminator lives on through rejected calls and is saved at any time | Discriminator side of C176/C177: an invariant (contents bounded by the calls, RAMs that learned something come first, same entry/base/ignoreZero) is kept by every call, answered or rejected; the text of a RAM that learned nothing is an empty field, refused by std::string::at; then induction over the sessions. |
| C180 | No call on a Discriminator is undefined | The absolute values of the contents of a RAM add up to at most the number of calls (kept by every call, answered or rejected), so no counter overflows; positions stay inside the entry, so no read is out of bounds. The constructor is seen as the one Wisard calls (construct_served). |
| C181 | Discriminator sessions kept in files | The invariant of C179 plus the file round trip of C62, with the file system threaded through the sessions; names are injective in the random part, so an earlier file is never appended to. |
| C182 | Wisard sessions kept in files | Wisard.json(huge=True, path) as in C14, threaded through the file system model. file_step: after any calls (C176) the text and the files of one save restore the model (wisard_roundtrip_file) and only the files named by its labels change (class_fs_differs); C182_sessions by induction over the sessions with prefix generalised, file names separated by label_file_inj. |

## Trusted base

1. **Coq's kernel** (8.16.1) and its `vm_compute` (used for concrete witnesses).
2. **`Print Assumptions`.** Every property theorem in `Props*.v` is followed by one. All are closed under the
   global context, except those whose statement or proof speaks of real numbers through Flocq: the theorems of
   C67, C79, C80 (only `C80_direction_one_partial` and its companions), C88 (Python constructor), C89, C90, C91,
   C92, C93, C141, C157 (KernelCanvas), C96, C97, C98, C99, C100 (float ratios of the Python outputs), C105, C165 (minScore) and C170 (scores).
   These rest on the axioms the standard library's real numbers rest on, and on nothing else:
   `ClassicalDedekindReals.sig_not_dec`, `ClassicalDedekindReals.sig_forall_dec`,
   `FunctionalExtensionality.functional_extensionality_dep` and, for some, `Classical_Prop.classic`.
   No axiom, parameter, admitted lemma or functor is added. Floating-point numbers themselves are the standard
   library's `SpecFloat` (computable, axiom free); Flocq is only used to relate them to real numbers.
3. **The transcription.** The model is written by hand from the text of `/repo/src`; each definition cites its
   lines. Nothing checks mechanically that it says what the C++ says.
4. **The platform**: x86-64, 32-bit two's complement `int`, 64-bit `long`/`size_t`, signed `char`, IEEE binary32 and
   binary64 without extended precision, C++14 (evaluation order of `m[k] = T(...)` unspecified: `lhs_first`).

### What is modelled

| repo file | model |
|---|---|
| common/utils.cc, definetypes.cc, exceptions.cc | Base64.v, Bytes.v, Utils.v (ipow, calculateNumberOfRams, getBiggestCandidate, randint/randdouble as oracles); Rand.v (seeding: the generator of std::rand() as a state machine, getRandomString, GNU random_shuffle, RAM(addressSize, entrySize)) |
| common/bleaching.cc | Bleaching.v, BBleaching.v |
| data/bininput.cc, data/dataset.cc | BinInput.v, DataSet.v; Crash.v (files of which only the first k bytes were written) |
| models/wisard/ram.cc, ramdatahandle.cc | Ram.v, RamData.v |
| models/wisard/discriminator.cc, wisard.cc | Disc.v, Wisard.v; Verbose.v (progress output, also of ClusWisard and the wrappers) |
| models/cluswisard/cluster.cc, cluswisard.cc | Cluster.v, ClusWisard.v; Heap.v (the pointers of Cluster, its copies and destructor) |
| libs/json.hpp (values, dump, parse) | Json.v, JsonText.v, TextApi.v |
| synthetic_data/synthesizers.cc | Synth.v |
| binarization/kernelcanvas.cc | Kernel.v |
| wrappers/wisardwrapper.cc, cluswisardwrapper.cc (classify outputs), kernelcanvaswrapper.cc | Wrapper.v, Kernel.v |

### What is not modelled

* `libs/json.hpp`: the serializer (`dump()`, `dump(2)`: escapes, UTF-8 check, integers, layout, `format_buffer`), the lexer and
  the parser are modelled (JsonText.v) and `parse(dump(j))` is proved to be what the value-level definition `retext`
  (Json.v) says (C107). The digit generation
  (`grisu2`, with its table of powers of ten) is modelled in Grisu.v and proved correct (C113). Left open, as a parameter `numtext`, is the C library's
  `strtod`; theorems about texts with a fractional number (only `minScore` is one) assume of it `correct_strtod T`: a number
  to which exactly one double is nearest is read as that double (Nearest.v has a function that meets this). Also not modelled: the growth of `indent_string` beyond 512
  blanks, recursion depth, numeric locales other than "C".
* pybind11 itself: argument conversion, overload resolution, keyword handling of wrong types.
* Memory: allocation failure, sharing and destruction; timing. Writing to `std::cout` is modelled (Verbose.v) as producing text; failure and buffering of the stream are not.
* `rand()` and `random_shuffle`: any results their contracts allow; no probability is claimed. In `Rand.v` (C124-C127) they come from an arbitrary generator seeded with the clock; random_shuffle is taken as in libstdc++.
* `tanh`: an arbitrary function on binary64. `std::sort`: any permutation that meets its contract.
* `include/wisardpkg.hpp` is generated from `src` by `generate_include.py`; running that script on a copy gives the same file byte for byte, so
  what is said of `src` holds of it (outside Coq).
* The operating system: a file is its content; opening fails by oracle; no partial writes, no concurrency.
* Simplifications with their reasons are in the comment of the definition concerned (e.g. text lengths below 2^31
  appear as hypotheses of the theorems where C++ indexes with `int`).

### Seeded faults

`seeded/LOG.jsonl` records edits of the model in the way realistic bugs would change the program, and which
theorems then fail; theorems that survived a fault that breaks their claim were tightened.
