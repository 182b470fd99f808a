{"id": "C01", "title": "Base64 round trip", "statement": "For every non-empty byte string s, Base64::decode(Base64::encode(s)) returns exactly s (same length, every byte value 0..255 included).", "quantifier": "all non-empty byte strings, any length", "why_tests_cant": "256^n strings and three padding shapes; a test samples a few", "anchors": ["src/common/utils.cc:Base64::encode", "src/common/utils.cc:Base64::decode"]}
{"id": "C02", "title": "Base64 text is RFC 4648", "statement": "Base64::encode(s) is exactly the RFC 4648 encoding of s: the bits of s, big-endian, cut into 6-bit groups (last one zero-filled), mapped through A-Za-z0-9+/, followed by the '=' padding that completes the last group of four.", "quantifier": "all byte strings", "why_tests_cant": "a self-consistent but non-standard codec passes every round-trip test", "anchors": ["src/common/utils.cc:Base64::encode", "src/common/utils.cc:Base64::charsMap"]}
{"id": "C03", "title": "Base64 text never contains a separator", "statement": "Base64::encode(s) has length 4*ceil(|s|/3) and contains only alphabet characters and '='; in particular never '.', '#', so the '.'/'#' framing used by every file and JSON format of the package is unambiguous.", "quantifier": "all byte strings", "why_tests_cant": "framing ambiguity would show on rare byte patterns only", "anchors": ["src/common/utils.cc:Base64::encode", "src/data/dataset.cc:save", "src/models/wisard/discriminator.cc:getRAMsData", "src/models/wisard/ramdatahandle.cc:data"]}
{"id": "C04", "title": "Base64::decode is memory safe on any text", "statement": "Base64::decode called on any text whatsoever (a config file edited or damaged by a user) never reads or writes out of bounds.", "quantifier": "all byte strings as input of decode", "why_tests_cant": "memory errors on malformed text depend on its length and on where '=' appears", "anchors": ["src/common/utils.cc:Base64::decode"]}
{"id": "C05", "title": "BinInput set/get law", "statement": "After set(i,b) with b in {0,1} and i < size(), get(i) is b, get(j) is unchanged for every other index j, size() is unchanged.", "quantifier": "all BinInput values, all indices, both bit values", "why_tests_cant": "bit masks go wrong at specific offsets/sign bits and for specific neighbours", "anchors": ["src/data/bininput.cc:set", "src/data/bininput.cc:get"]}
{"id": "C06", "title": "BinInput built from a list holds that list", "statement": "BinInput(v) for a list v of zeros and ones has size() = |v| and get(i) = v[i] for every i; BinInput(n) has size n and every bit 0.", "quantifier": "all 0/1 lists of any length", "why_tests_cant": "length mod 8 and bit order interact for every length", "anchors": ["src/data/bininput.cc:BinInput", "src/data/bininput.cc:setConfig", "src/data/bininput.cc:size", "src/data/bininput.cc:get"]}
{"id": "C07", "title": "BinInput rejects indices out of range", "statement": "get(i) and set(i,v) with i >= size() throw Exception('Index out of range!') and leave the object unchanged; padding bits can never be read or written.", "quantifier": "all BinInput values and all 64-bit indices", "why_tests_cant": "the interesting indices are those inside the last byte's padding", "anchors": ["src/data/bininput.cc:get", "src/data/bininput.cc:set"]}
{"id": "C08", "title": "BinInput serialisation round trip", "statement": "BinInput(b.data()) has the same size and the same bit at every index as b, for every b that can be built by the constructors and set().", "quantifier": "all reachable BinInput values", "why_tests_cant": "every length mod 8 and length mod 3 combination and every content", "anchors": ["src/data/bininput.cc:data", "src/data/bininput.cc:BinInput(const std::string&)"]}
{"id": "C09", "title": "Writing one index never disturbs another", "statement": "set(i,v) with any int v, and BinInput(list) with any list of shorts, affects only the addressed bits (what a user of list input 'just zeros and ones' relies on when data is not clean).", "quantifier": "all values v of type int, all indices", "why_tests_cant": "tests only use 0/1", "anchors": ["src/data/bininput.cc:set"]}
{"id": "C10", "title": "DataSet is an append-only labelled list", "statement": "After any sequence of add calls, size() is the number of calls, get(i) is the i-th input, getLabel(i) is the i-th label when it is non-empty and throws out_of_range otherwise.", "quantifier": "all sequences of add calls", "why_tests_cant": "labels live in a separate map keyed by position; only histories show misalignment", "anchors": ["src/data/dataset.cc:add", "src/data/dataset.cc:get", "src/data/dataset.cc:getLabel", "src/data/dataset.cc:size"]}
{"id": "C11", "title": "DataSet save/load round trip", "statement": "Saving a non-empty, fully labelled data set to a path where no file exists and loading that file yields a data set with the same inputs and labels in the same order.", "quantifier": "all non-empty fully labelled data sets, any label bytes, any path", "why_tests_cant": "labels may contain any byte incl. '.' and '#'; record framing over files", "anchors": ["src/data/dataset.cc:save", "src/data/dataset.cc:DataSet(std::string)"]}
{"id": "C12", "title": "DataSet save/load works for every data set", "statement": "The round trip also holds for empty data sets, for data sets with unlabelled entries, and when the same path is saved twice.", "quantifier": "all data sets, all numbers of saves", "why_tests_cant": "needs file histories and unlabelled entries", "anchors": ["src/data/dataset.cc:save", "src/data/dataset.cc:DataSet(std::string)"]}
{"id": "C13", "title": "RAMDataHandle text round trip", "statement": "For every handle whose RAMs (indices 0..n-1, n>=1) are all non-empty, RAMDataHandle(h.data()) holds exactly the same address->content entries in each RAM, whatever order the hash map iterates in.", "quantifier": "all RAM contents (64-bit addresses, 32-bit contents), all iteration orders", "why_tests_cant": "iteration order of unordered_map is unspecified; byte-level layout for all 64-bit keys", "anchors": ["src/models/wisard/ramdatahandle.cc:data", "src/models/wisard/ramdatahandle.cc:setData", "src/models/wisard/ramdatahandle.cc:dataToRam", "src/common/utils.cc:convertToBytes", "src/common/utils.cc:convertToValue"]}
{"id": "C14", "title": "RAMDataHandle set/get law", "statement": "After set(r,a,v), get(r,a) is v and every other (RAM, address) entry keeps its value, for every address representable by the int parameter.", "quantifier": "all handles, RAM indices, addresses, values", "why_tests_cant": "sign extension of the int address and map defaulting", "anchors": ["src/models/wisard/ramdatahandle.cc:set", "src/models/wisard/ramdatahandle.cc:get"]}
{"id": "C15", "title": "RAMDataHandle.compare is content equality", "statement": "h1.compare(h2) is true exactly when both handles hold the same RAM indices and, for each, the same set of (address, content) entries; hence it is an equivalence relation.", "quantifier": "all pairs of handles", "why_tests_cant": "equality is implemented by one-sided inclusion plus sizes", "anchors": ["src/models/wisard/ramdatahandle.cc:compare"]}
{"id": "C16", "title": "Reading a RAMDataHandle does not change it", "statement": "get(r,a) and get(r) leave data() and compare() results unchanged, and data() always terminates.", "quantifier": "all handles and all histories of get calls", "why_tests_cant": "needs histories get->data/compare, including indices that are absent or negative", "anchors": ["src/models/wisard/ramdatahandle.cc:get", "src/models/wisard/ramdatahandle.cc:data"]}
{"id": "C17", "title": "Integer power helper is exact", "statement": "ipow(b,e) terminates for every e >= 0 and returns b^e whenever b^e fits in a signed 64-bit integer.", "quantifier": "all b >= 2, e >= 0", "why_tests_cant": "overflow boundary is different for each base", "anchors": ["src/common/utils.cc:ipow"]}
{"id": "C18", "title": "Default (shuffled) addressing covers the entry", "statement": "A discriminator built without mapping/indexes has floor(entry/address) RAMs, plus one when completeAddressing and the division is not exact; every RAM reads exactly addressSize positions, all inside [0,entrySize); with completeAddressing (or exact division) every position of the entry is read by some RAM, and no position is read twice when the division is exact.", "quantifier": "all entry sizes, address sizes, random draws and shuffles", "why_tests_cant": "random mapping: a test sees one shuffle", "anchors": ["src/models/wisard/discriminator.cc:setRAMShuffle"]}
{"id": "C19", "title": "Explicit index list lays out RAMs in order", "statement": "With an index list (a permutation of 0..entrySize-1) RAM k reads exactly indexes[k*addressSize .. (k+1)*addressSize-1], in that order; trailing indexes that do not fill a RAM are ignored.", "quantifier": "all permutations and address sizes", "why_tests_cant": "slicing boundaries", "anchors": ["src/models/wisard/discriminator.cc:setRAMByIndex"]}
{"id": "C20", "title": "Explicit mapping is used verbatim", "statement": "With a mapping, RAM k reads exactly the positions mapping[k], in order, and json()/jsonConfig() report the same mapping.", "quantifier": "all mappings", "why_tests_cant": "must hold for ragged mappings of any shape", "anchors": ["src/models/wisard/discriminator.cc:setRAMByMapping", "src/models/wisard/discriminator.cc:setMapping", "src/models/wisard/ram.cc:setMapping"]}
{"id": "C21", "title": "Constructor parameter validation", "statement": "Construction throws Exception exactly when: base < 2, or (no mapping) addressSize < 2, entrySize < 2, entrySize < addressSize, or an index list has the wrong length, an index >= entrySize or a repeated index; or base = 2 and some RAM would need more than 64 bits. No other exception is thrown.", "quantifier": "all parameter combinations", "why_tests_cant": "boundary cases of eight conditions and their order", "anchors": ["src/models/wisard/discriminator.cc:checkAddressSize", "src/models/wisard/discriminator.cc:checkBase", "src/models/wisard/discriminator.cc:checkListOfIndexes", "src/models/wisard/ram.cc:checkLimitAddressSize"]}
{"id": "C22", "title": "Address space limit is enforced for every base", "statement": "A RAM whose number of addresses base^addressSize exceeds 2^64 is rejected with an Exception (as the message promises).", "quantifier": "all bases >= 2 and address sizes", "why_tests_cant": "the check compares a 64-bit value with the 64-bit maximum; overflow only for large parameters", "anchors": ["src/models/wisard/ram.cc:checkLimitAddressSize", "src/common/utils.cc:ipow"]}
{"id": "C23", "title": "Index list validation rejects every bad index", "statement": "An index list containing a value outside [0,entrySize) is rejected at construction.", "quantifier": "all index lists", "why_tests_cant": "needs negative entries", "anchors": ["src/models/wisard/discriminator.cc:checkListOfIndexes"]}
{"id": "C24", "title": "Mapping validation rejects out-of-range positions", "statement": "A mapping naming a position outside [0,entrySize) is rejected at construction or at the latest by an exception when used; no out-of-bounds read happens.", "quantifier": "all mappings and images", "why_tests_cant": "memory error, silent in tests", "anchors": ["src/models/wisard/discriminator.cc:setRAMByMapping", "src/models/wisard/ram.cc:getIndex"]}
{"id": "C25", "title": "Different patterns never share a RAM address", "statement": "For every RAM accepted at construction, two valid images select the same RAM cell if and only if they agree on all positions the RAM reads.", "quantifier": "all bases, address sizes, mappings and image pairs", "why_tests_cant": "64-bit wrap-around collisions cannot be enumerated", "anchors": ["src/models/wisard/ram.cc:getIndex", "src/models/wisard/ram.cc:checkLimitAddressSize"]}
{"id": "C26", "title": "Votes count matching training images", "statement": "After any sequence of train calls on a fresh discriminator, classify(x)[r] is the number of trained images that agree with x on all positions read by RAM r (0 if ignoreZero is on and x is 0 at all of them).", "quantifier": "all constructors, mappings, bases, training histories and query images", "why_tests_cant": "functional claim over unbounded histories", "anchors": ["src/models/wisard/discriminator.cc:train", "src/models/wisard/discriminator.cc:_classify", "src/models/wisard/ram.cc:train", "src/models/wisard/ram.cc:getVote", "src/models/wisard/ram.cc:getIndex"]}
{"id": "C27", "title": "Votes after mixed train/untrain histories", "statement": "After any interleaving of train and untrain calls with valid images, classify(x)[r] equals trainings minus effective untrainings of images matching x on RAM r, where an untraining is effective on a RAM only if a matching image was trained before it.", "quantifier": "all interleavings", "why_tests_cant": "histories; untrain of an unseen pattern is silently ignored per RAM", "anchors": ["src/models/wisard/discriminator.cc:untrain", "src/models/wisard/ram.cc:untrain"]}
{"id": "C28", "title": "Untraining undoes training", "statement": "train(x) followed (immediately) by untrain(x) leaves the number of trainings and the vote of every image on every RAM, and the mental image, as they were before.", "quantifier": "all reachable discriminators and all valid images", "why_tests_cant": "must hold in every reachable state for every query", "anchors": ["src/models/wisard/discriminator.cc:train", "src/models/wisard/discriminator.cc:untrain"]}
{"id": "C29", "title": "Training order is irrelevant", "statement": "Training the same images in any order gives the same votes, the same mental image and the same stored RAM contents.", "quantifier": "all permutations of all histories", "why_tests_cant": "n! orders", "anchors": ["src/models/wisard/discriminator.cc:train", "src/models/wisard/ram.cc:train"]}
{"id": "C30", "title": "Votes are bounded and monotone", "statement": "With training only, every vote lies between 0 and the number of trainings; one more training never lowers a vote and raises it by at most one; a trained image gets a vote >= 1 from every RAM (when no RAM ignores it through ignoreZero).", "quantifier": "all histories and images", "why_tests_cant": "inequalities over all histories", "anchors": ["src/models/wisard/discriminator.cc:train", "src/models/wisard/discriminator.cc:_classify"]}
{"id": "C31", "title": "Entry size guard", "statement": "train, untrain and classify with an image whose length differs from entrySize throw Exception and leave the discriminator unchanged.", "quantifier": "all states and images", "why_tests_cant": "state unchanged after failure", "anchors": ["src/models/wisard/discriminator.cc:checkEntrySize"]}
{"id": "C32", "title": "Pixel guard", "statement": "train/classify throw exactly when some position read by a RAM holds a value >= base; when no read position does, they succeed.", "quantifier": "all images of correct length with non-negative values", "why_tests_cant": "depends on which positions are read and the order", "anchors": ["src/models/wisard/ram.cc:checkPos", "src/models/wisard/ram.cc:getIndex"]}
{"id": "C33", "title": "A rejected training image leaves no trace", "statement": "If train(x) throws, the discriminator is unchanged.", "quantifier": "all states and rejected images", "why_tests_cant": "state after failure", "anchors": ["src/models/wisard/discriminator.cc:train"]}
{"id": "C34", "title": "Pixels outside [0,base) are rejected", "statement": "train(x) throws whenever a read position of x holds a value outside 0..base-1.", "quantifier": "all images", "why_tests_cant": "negative values", "anchors": ["src/models/wisard/ram.cc:checkPos"]}
{"id": "C35", "title": "Training counter", "statement": "The number of trainings reported equals the number of successful train calls minus untrain calls, for any history of valid calls.", "quantifier": "all histories", "why_tests_cant": "history property", "anchors": ["src/models/wisard/discriminator.cc:getNumberOfTrainings", "src/models/wisard/discriminator.cc:train", "src/models/wisard/discriminator.cc:untrain"]}
{"id": "C36", "title": "Mental image counts active pixels", "statement": "After training only, mentalImage[p] equals (number of RAM inputs wired to p) x (number of trained images whose pixel p is non-zero); in particular it is exactly that number of images when each position is read once (RAMs with at most 2^31 addresses).", "quantifier": "all mappings, bases with base^addressSize <= 2^31, histories", "why_tests_cant": "decoding of every stored address back into pixels", "anchors": ["src/models/wisard/ram.cc:getMentalImage", "src/models/wisard/ram.cc:convertToBase", "src/models/wisard/discriminator.cc:getMentalImage"]}
{"id": "C37", "title": "Mental image is right for every accepted address size", "statement": "The mental image law holds for every RAM that construction accepts (up to 64 address bits).", "quantifier": "all accepted address sizes", "why_tests_cant": "needs addresses beyond 31 bits", "anchors": ["src/models/wisard/ram.cc:convertToBase"]}
{"id": "C38", "title": "BinInput and list images are interchangeable", "statement": "Training/classifying with BinInput(v) or with the 0/1 list v gives identical results and identical successor states.", "quantifier": "all 0/1 images, all states", "why_tests_cant": "two template instantiations", "anchors": ["src/models/wisard/discriminator.cc:train", "src/models/wisard/discriminator.cc:classify", "src/models/wisard/ram.cc:getIndex"]}
{"id": "C39", "title": "Counters never overflow", "statement": "No sequence of train calls makes a counter overflow (signed overflow is undefined behaviour).", "quantifier": "all histories, unbounded", "why_tests_cant": "needs 2^31 calls", "anchors": ["src/models/wisard/ram.cc:train", "src/models/wisard/discriminator.cc:train"]}
{"id": "C40", "title": "Bleaching stops, at the least sufficient threshold", "statement": "For all votes below 2^31-2, bleaching terminates and returns, for each label, the number of its votes >= b, where b >= 1 is the least threshold at which there is no ambiguity or the highest count is at most 1.", "quantifier": "all label sets, vote vectors and confidence values", "why_tests_cant": "loop termination and minimality", "anchors": ["src/common/bleaching.cc:makeConfidenceless", "src/common/bleaching.cc:isThereAmbiguity"]}
{"id": "C41", "title": "Without bleaching every non-zero vote counts once", "statement": "With bleachingActivated=false the count of each label is the number of its RAMs with vote >= 1.", "quantifier": "all votes", "why_tests_cant": "universally quantified", "anchors": ["src/common/bleaching.cc:makeConfidenceless"]}
{"id": "C42", "title": "Winner has the highest count", "statement": "The class returned is one of the known labels, no label has a larger count, ties go to the lexicographically greatest label, and the result is the empty string only if there are no labels.", "quantifier": "all candidate maps", "why_tests_cant": "all ties", "anchors": ["src/common/bleaching.cc:getBiggestCandidate"]}
{"id": "C43", "title": "With confidence 1 a decided winner is unique", "statement": "With bleaching on and confidence=1, when the returned class has a count above 1 no other class has the same count.", "quantifier": "all votes", "why_tests_cant": "depends on loop exit condition", "anchors": ["src/common/bleaching.cc:makeConfidenceless", "src/common/bleaching.cc:isThereAmbiguity"]}
{"id": "C44", "title": "confidence is the guaranteed margin", "statement": "With bleaching on and confidence=c, when the winner's count is above 1 its margin over every other class is at least c (documented meaning of confidence).", "quantifier": "all votes, all c >= 1", "why_tests_cant": "order dependent", "anchors": ["src/common/bleaching.cc:isThereAmbiguity", "docs/models/wisard.md"]}
{"id": "C45", "title": "searchBestConfidence does not affect classification", "statement": "Classification results are the same whatever searchBestConfidence is.", "quantifier": "all states, images", "why_tests_cant": "two-run property", "anchors": ["src/common/bleaching.cc:make"]}
{"id": "C46", "title": "Wisard classification is determined by the labelled histories", "statement": "After any sequence of train batches and leaveOneOut/leaveMoreOut calls with valid images, classify(x) returns, for each image, the label chosen by the bleaching rule from the matching-image counts of each label's own history.", "quantifier": "all configurations, histories and query images, all random mappings", "why_tests_cant": "end-to-end functional claim", "anchors": ["src/models/wisard/wisard.cc:train", "src/models/wisard/wisard.cc:__classify", "src/models/wisard/wisard.cc:leaveOneOut"]}
{"id": "C47", "title": "Labels are isolated", "statement": "Training or untraining label A never changes the votes, counters or mental image of another label B.", "quantifier": "all states, labels, images", "why_tests_cant": "frame property", "anchors": ["src/models/wisard/wisard.cc:train", "src/models/wisard/wisard.cc:leaveOneOut"]}
{"id": "C48", "title": "Order of training examples is irrelevant to Wisard", "statement": "Training the same labelled examples in another order, or in another split into batches, gives the same stored contents when the label wiring is fixed (mapping/indexes).", "quantifier": "all permutations and batch splits", "why_tests_cant": "n! orders", "anchors": ["src/models/wisard/wisard.cc:train"]}
{"id": "C49", "title": "Batch argument guards are atomic", "statement": "train of a non-empty batch with |images| != |labels|, or with confidence larger than the number of RAMs, throws before anything is learned; leaveMoreOut with mismatching sizes likewise.", "quantifier": "all states and arguments", "why_tests_cant": "state unchanged", "anchors": ["src/models/wisard/wisard.cc:checkInputSizes", "src/models/wisard/wisard.cc:checkConfidence"]}
{"id": "C50", "title": "A failing batch keeps exactly the examples before the failure", "statement": "If example i of a train batch, under a label already known, is rejected for its length, the examples before i are learned, those from i on are not.", "quantifier": "all batches", "why_tests_cant": "state after partial failure", "anchors": ["src/models/wisard/wisard.cc:train"]}
{"id": "C51", "title": "Training on an empty batch is a no-op or an error, never undefined", "statement": "train([],[]) does not perform an out-of-bounds access.", "quantifier": "all states", "why_tests_cant": "memory error", "anchors": ["src/models/wisard/wisard.cc:train", "src/models/cluswisard/cluswisard.cc:train"]}
{"id": "C52", "title": "A rejected first example of a new label leaves the model usable", "statement": "If train throws while creating the discriminator for a new label, later classifications behave as if the call had not happened.", "quantifier": "all states, all evaluation orders the C++ standard allows", "why_tests_cant": "unspecified evaluation order before C++17", "anchors": ["src/models/wisard/wisard.cc:makeDiscriminator"]}
{"id": "C53", "title": "leaveOneOut of an unknown label is a no-op", "statement": "leaveOneOut(x,l) for a label never trained changes nothing and does not throw, whatever x is.", "quantifier": "all states", "why_tests_cant": "frame", "anchors": ["src/models/wisard/wisard.cc:leaveOneOut"]}
{"id": "C54", "title": "Wisard mental images", "statement": "getMentalImages() has exactly the trained labels as keys, each with the mental image of its own history.", "quantifier": "all histories", "why_tests_cant": "history property", "anchors": ["src/models/wisard/wisard.cc:getMentalImages"]}
{"id": "C55", "title": "Queries never change the model", "statement": "classify, getMentalImages, json and jsonConfig leave every later observable result unchanged.", "quantifier": "all interleavings of queries with updates", "why_tests_cant": "interleavings", "anchors": ["src/models/wisard/wisard.cc:__classify", "src/models/wisard/discriminator.cc:_classify", "src/models/wisard/ram.cc:getVote"]}
{"id": "C56", "title": "DataSet training equals list training", "statement": "train(dataset) and classify(dataset) give the same states and results as the list versions on the same bits and labels, when every entry is labelled.", "quantifier": "all data sets and states", "why_tests_cant": "two code paths", "anchors": ["src/models/wisard/wisard.cc:train(const DataSet&)", "src/models/wisard/wisard.cc:_classify"]}
{"id": "C57", "title": "Discriminator json round trip", "statement": "Discriminator(d.json()) is indistinguishable from d: same entry size, counter, mapping, ignoreZero, base, RAM contents; hence same votes now and after any further training.", "quantifier": "all trained discriminators, all iteration orders", "why_tests_cant": "all contents; behaviour under future histories", "anchors": ["src/models/wisard/discriminator.cc:json", "src/models/wisard/discriminator.cc:Discriminator(nl::json)", "src/models/wisard/discriminator.cc:getRAMsData", "src/models/wisard/discriminator.cc:setRAMsData", "src/models/wisard/ram.cc:RAM(nl::json)"]}
{"id": "C58", "title": "An untrained discriminator can be saved and reloaded", "statement": "Discriminator(d.json()) succeeds for a freshly constructed discriminator.", "quantifier": "all fresh discriminators", "why_tests_cant": "edge state", "anchors": ["src/models/wisard/discriminator.cc:setRAMsData", "src/models/wisard/ramdatahandle.cc:setData"]}
{"id": "C59", "title": "jsonConfig can be reloaded", "statement": "As documented ('can be saved with json or jsonConfig methods and reloaded later'), constructing a model from jsonConfig() succeeds.", "quantifier": "all discriminators / wisards", "why_tests_cant": "documented but untested", "anchors": ["src/models/wisard/discriminator.cc:jsonConfig", "src/models/wisard/wisard.cc:jsonConfig", "docs/models/discriminator.md"]}
{"id": "C60", "title": "Wisard json round trip", "statement": "Wisard(w.json()) has the same persistent options and, for every label, an identical discriminator; classification agrees now and after any further common operations on known labels. (Provided labels are UTF-8 and every trained label has at least one RAM.)", "quantifier": "all trained Wisards, all iteration orders", "why_tests_cant": "all contents; future behaviour", "anchors": ["src/models/wisard/wisard.cc:json", "src/models/wisard/wisard.cc:Wisard(std::string)"]}
{"id": "C61", "title": "Every option survives the Wisard json round trip", "statement": "mapping and searchBestConfidence survive too, so that a label first trained after reloading gets the wiring the user configured.", "quantifier": "all configurations", "why_tests_cant": "needs reload followed by a new label", "anchors": ["src/models/wisard/wisard.cc:getConfig"]}
{"id": "C62", "title": "Huge mode round trip", "statement": "With json(true,path), when the files can be created and do not exist yet, reloading yields the same discriminator as json().", "quantifier": "all contents, paths, file systems", "why_tests_cant": "file system states", "anchors": ["src/models/wisard/discriminator.cc:getRAMsData", "src/models/wisard/discriminator.cc:setRAMsData"]}
{"id": "C63", "title": "Huge mode never loses data silently", "statement": "If json(true,path) returns normally, reloading its result yields the same discriminator.", "quantifier": "all file system outcomes (open may fail)", "why_tests_cant": "failure injection", "anchors": ["src/models/wisard/discriminator.cc:getRAMsData", "src/models/wisard/discriminator.cc:setRAMsData"]}
{"id": "C64", "title": "Cluster size limit", "statement": "A cluster never holds more than max(1,discriminatorsLimit) discriminators, whatever is trained; discriminators are never removed or reordered.", "quantifier": "all histories", "why_tests_cant": "history invariant", "anchors": ["src/models/cluswisard/cluster.cc:train"]}
{"id": "C65", "title": "Every accepted image is learned", "statement": "Each successful cluster train call increases the training counter of at least one discriminator of the cluster by one; no counter ever decreases.", "quantifier": "all states, images, float values", "why_tests_cant": "depends on float comparisons incl. NaN", "anchors": ["src/models/cluswisard/cluster.cc:train"]}
{"id": "C66", "title": "Cluster training decision rule", "statement": "A discriminator learns the image exactly when its score reaches min(1, minScore + count/threshold); if none does, a new discriminator is created while below the limit, else the last best-scoring one learns it.", "quantifier": "all states and images", "why_tests_cant": "float rule over all states", "anchors": ["src/models/cluswisard/cluster.cc:train", "src/models/cluswisard/cluster.cc:getScore"]}
{"id": "C67", "title": "Score range", "statement": "getScore of non-negative votes lies in [0,1], is 0 exactly when all votes are 0, and is exactly 1 when all votes are equal and positive (as IEEE single precision values, for vote sums below 2^24).", "quantifier": "all vote vectors with sum below 2^24", "why_tests_cant": "floating point rounding", "anchors": ["src/models/cluswisard/cluster.cc:getScore"]}
{"id": "C68", "title": "ClusWisard classify returns a trained label", "statement": "If no trained label contains '::' or ends with ':', classify returns for each image a label that was trained.", "quantifier": "all histories", "why_tests_cant": "string surgery on composite keys", "anchors": ["src/models/cluswisard/cluswisard.cc:classify"]}
{"id": "C69", "title": "ClusWisard classify returns the trained label for every label text", "statement": "As C68 but for arbitrary labels.", "quantifier": "all labels", "why_tests_cant": "needs '::' in a label", "anchors": ["src/models/cluswisard/cluswisard.cc:classify"]}
{"id": "C70", "title": "Semi-supervised training uses the unlabelled images", "statement": "train(X, {i: label}) trains every labelled image with its label and then every unlabelled image without label.", "quantifier": "all partial labelings", "why_tests_cant": "which images are used is not visible in the tests", "anchors": ["src/models/cluswisard/cluswisard.cc:train(images,map)"]}
{"id": "C71", "title": "Semi-supervised training is memory safe", "statement": "train(X, {i: label}) never accesses memory out of bounds for any label dictionary not larger than X.", "quantifier": "all label dictionaries", "why_tests_cant": "keys outside the data range", "anchors": ["src/models/cluswisard/cluswisard.cc:train(images,map)"]}
{"id": "C72", "title": "trainUnsupervised accumulates", "statement": "Calling trainUnsupervised twice keeps what the first call learned.", "quantifier": "all call sequences", "why_tests_cant": "needs two calls", "anchors": ["src/models/cluswisard/cluswisard.cc:trainUnsupervised"]}
{"id": "C73", "title": "trainUnsupervised works after supervised training", "statement": "trainUnsupervised on a ClusWisard that already has supervised clusters trains its unsupervised cluster with the configured parameters.", "quantifier": "all histories", "why_tests_cant": "uninitialised memory", "anchors": ["src/models/cluswisard/cluswisard.cc:trainUnsupervised"]}
{"id": "C74", "title": "trainUnsupervised honours base", "statement": "Unsupervised training accepts pixels up to base-1 as configured.", "quantifier": "all bases", "why_tests_cant": "base > 2 untested", "anchors": ["src/models/cluswisard/cluswisard.cc:trainUnsupervised"]}
{"id": "C75", "title": "ClusWisard json round trip", "statement": "ClusWisard(c.json()) has the same options (but searchBestConfidence), clusters and unsupervised cluster; classifications agree.", "quantifier": "all trained states, all iteration orders", "why_tests_cant": "all contents", "anchors": ["src/models/cluswisard/cluswisard.cc:json", "src/models/cluswisard/cluswisard.cc:ClusWisard(std::string)", "src/models/cluswisard/cluster.cc:getJson", "src/models/cluswisard/cluster.cc:Cluster(nl::json)"]}
{"id": "C76", "title": "Asking for a mental image does not change the model", "statement": "getMentalImage(label) leaves later behaviour unchanged.", "quantifier": "all labels incl. unknown", "why_tests_cant": "query then update history", "anchors": ["src/models/cluswisard/cluswisard.cc:getMentalImage"]}
{"id": "C77", "title": "Synthesizer output law", "statement": "make() returns a 0/1 list of the mental image's length; there is an index k in [0,max) with out[i]=1 exactly when k < mentalImage[i] (non-negative images with a positive maximum): zero-intensity pixels are never set, maximal ones always, and over k each pixel is set mentalImage[i] times out of max.", "quantifier": "all mental images and random draws", "why_tests_cant": "random", "anchors": ["src/synthetic_data/synthesizers.cc:make", "src/synthetic_data/synthesizers.cc:makeCube"]}
{"id": "C78", "title": "Synthesizer is total", "statement": "Constructing a Synthesizer from any mental image of the model and calling make() never performs undefined behaviour.", "quantifier": "all mental images", "why_tests_cant": "all-zero images", "anchors": ["src/synthetic_data/synthesizers.cc:make", "src/common/utils.cc:randint"]}
{"id": "C79", "title": "KernelCanvas activates the nearest kernels", "statement": "transform of a sequence of rows of the declared dimension returns numberOfKernels*bitsByKernel values, all 0 or 1: the block of bits of a kernel is on exactly if, for some row, the kernel is in a set of the asked size (activationDegree*numberOfKernels rounded) none of which is farther from the normalised row than a kernel left out; nothing is on for an empty sequence. This holds for any tanh, NaN included.", "quantifier": "all sequences, kernels, double values and orders std::sort may give equal elements", "why_tests_cant": "random kernels; all float values", "anchors": ["src/binarization/kernelcanvas.cc:transform", "src/binarization/kernelcanvas.cc:activateKernels", "src/binarization/kernelcanvas.cc:calculateDistances", "src/binarization/kernelcanvas.cc:multDimMean", "src/binarization/kernelcanvas.cc:multDimStd"]}
{"id": "C80", "title": "KernelCanvas direction mode is memory safe", "statement": "transform with useDirection=true never writes outside its buffers.", "quantifier": "all dimensions and sequences", "why_tests_cant": "heap corruption, silent", "anchors": ["src/binarization/kernelcanvas.cc:calculatePoint", "src/binarization/kernelcanvas.cc:switchIndexes"]}
{"id": "C81", "title": "Number of RAMs helper agrees with construction", "statement": "calculateNumberOfRams(entrySize,addressSize,completeAddressing) (used for activation degree and confidence check) equals the number of RAMs a default-wired discriminator has.", "quantifier": "all sizes", "why_tests_cant": "boundary", "anchors": ["src/common/utils.cc:calculateNumberOfRams", "src/models/wisard/discriminator.cc:setRAMShuffle"]}
{"id": "C82", "title": "Fixed width integers round trip through bytes", "statement": "convertToValue(convertToBytes(v)) = v for 64-bit addresses and 32-bit contents, using exactly 8 and 4 bytes.", "quantifier": "all 2^64 / 2^32 values", "why_tests_cant": "too many values", "anchors": ["src/common/utils.cc:convertToBytes", "src/common/utils.cc:convertToValue"]}
{"id": "C83", "title": "Learning law of a cluster", "statement": "For valid parameters and images of the right shape, a sequence of cluster train calls always succeeds, and the resulting discriminators and all later votes are those of the images alone: each discriminator has learned exactly the images the decision rule (C66, evaluated on the images seen so far) assigns to it, and votes like one trained on just these.", "quantifier": "all image sequences, parameters, float values and random wirings", "why_tests_cant": "history refinement over unbounded sequences and float decisions", "anchors": ["src/models/cluswisard/cluster.cc:train", "src/models/cluswisard/cluster.cc:classify"]}
{"id": "C84", "title": "Learning law of ClusWisard", "statement": "For a valid configuration, any sequence of supervised and semi-supervised train calls with well-shaped images succeeds; each label's cluster follows the law of C83 for the images given (or guessed) under that label, and classify answers, for every image, the label of the discriminator chosen by the bleaching rule among all 'label::j' entries.", "quantifier": "all call sequences, labels, images and random wirings", "why_tests_cant": "refinement of the whole model", "anchors": ["src/models/cluswisard/cluswisard.cc:train", "src/models/cluswisard/cluswisard.cc:classify", "src/models/cluswisard/cluster.cc:train"]}
{"id": "C85", "title": "A failed ClusWisard train call leaves the model usable", "statement": "If a train call throws while a discriminator is being created, later calls do not dereference null pointers.", "quantifier": "all states, all evaluation orders the C++ standard allows", "why_tests_cant": "unspecified evaluation order before C++17", "anchors": ["src/models/cluswisard/cluster.cc:makeDiscriminator"]}
{"id": "C86", "title": "Learning law of unsupervised training", "statement": "On a ClusWisard without supervised clusters, trainUnsupervised on well-shaped 0/1 images succeeds and follows the law of C83, and classifyUnsupervised answers for every image the number of one of the learned discriminators, chosen by the bleaching rule with confidence 1.", "quantifier": "all image sequences, configurations and random wirings", "why_tests_cant": "history refinement", "anchors": ["src/models/cluswisard/cluswisard.cc:trainUnsupervised", "src/models/cluswisard/cluswisard.cc:classifyUnsupervised"]}
{"id": "C87", "title": "ClusWisard json(true,path) keeps everything in files", "statement": "If the files it names are new and can be created (and no label is 'unsupervised_cluster' when there is an unsupervised cluster), saving with json(true,path) and reloading gives the same ClusWisard as the in-memory round trip; the file names of distinct discriminators never collide.", "quantifier": "all trained states, labels, paths and random file name parts", "why_tests_cant": "all label texts (labels may contain underscores and digits)", "anchors": ["src/models/cluswisard/cluswisard.cc:json", "src/models/cluswisard/cluster.cc:getJson", "src/models/wisard/discriminator.cc:getRAMsData"]}
{"id": "C88", "title": "KernelCanvas constructors agree", "statement": "KernelCanvas(dim, n, options) gives n kernels of dim coordinates in [-1,1], from C++ and from Python.", "quantifier": "all parameters and random values", "why_tests_cant": "uninitialised member", "anchors": ["src/binarization/kernelcanvas.cc:KernelCanvas", "src/binarization/kernelcanvas.cc:setupKernelCanvas", "src/wrappers/kernelcanvaswrapper.cc:KernelCanvasWrapper", "src/common/utils.cc:randdouble"]}
{"id": "C89", "title": "KernelCanvas validates its parameters", "statement": "The Python constructor rejects, in this order and with the documented message, n<1, dim<1, bitsByKernel<1 and an activation degree above 1 or below 0; allowed parameters (at most 2^24 kernels) always give an object.", "quantifier": "all parameters that are not NaN", "why_tests_cant": "all values", "anchors": ["src/binarization/kernelcanvas.cc:checkInputs", "src/binarization/kernelcanvas.cc:setupKernelCanvas"]}
{"id": "C90", "title": "Activation count", "statement": "For up to 2^24 kernels the number of kernels a row activates is between 0 and n, 0 for degree 0, n for degree 1, and never decreases when the degree grows.", "quantifier": "all kernel counts and all single precision degrees", "why_tests_cant": "2^30 degrees", "anchors": ["src/binarization/kernelcanvas.cc:setupKernelCanvas"]}
{"id": "C91", "title": "No more activations than kernels", "statement": "transform never tries to activate more kernels than exist.", "quantifier": "all kernel counts and degrees", "why_tests_cant": "needs 16777219 kernels", "anchors": ["src/binarization/kernelcanvas.cc:setupKernelCanvas", "src/binarization/kernelcanvas.cc:activateKernels"]}
{"id": "C92", "title": "Rows of the wrong length are rejected", "statement": "transform throws the documented exception when some row does not have the declared dimension.", "quantifier": "all sequences", "why_tests_cant": "out-of-bounds reads are silent", "anchors": ["src/binarization/kernelcanvas.cc:transform", "src/binarization/kernelcanvas.cc:checkDimension", "src/binarization/kernelcanvas.cc:multDimMean"]}
{"id": "C93", "title": "A non-empty sequence switches something on", "statement": "transform of a non-empty sequence returns at least one 1.", "quantifier": "all sequences and parameters", "why_tests_cant": "all values", "anchors": ["src/binarization/kernelcanvas.cc:activateKernels", "src/binarization/kernelcanvas.cc:setupKernelCanvas"]}
{"id": "C94", "title": "Python classify agrees with C++ classify", "statement": "For every non-empty batch the Python classify of Wisard and ClusWisard names exactly the classes the C++ classify returns, in the same order, as plain labels or dictionaries carrying exactly the requested extras, and fails exactly when (and how) the C++ one fails.", "quantifier": "all models, batches and option combinations", "why_tests_cant": "eight option combinations times all states", "anchors": ["src/wrappers/wisardwrapper.cc:_pyClassify", "src/wrappers/wisardwrapper.cc:setClassifyOutput", "src/wrappers/cluswisardwrapper.cc:pyClassify"]}
{"id": "C95", "title": "Classifying an empty batch", "statement": "classify of an empty list or DataSet returns an empty list.", "quantifier": "all models", "why_tests_cant": "undefined behaviour may look fine", "anchors": ["src/wrappers/wisardwrapper.cc:_pyClassify", "src/wrappers/cluswisardwrapper.cc:pyClassify"]}
{"id": "C96", "title": "Activation degree of Wisard", "statement": "With returnActivationDegree, activationDegree is the number of RAMs that voted for the winner over the number of RAMs of its discriminator, as a float in [0,1].", "quantifier": "all histories of train and leaveOneOut/leaveMoreOut calls, configurations, batches", "why_tests_cant": "all float values; mapping", "anchors": ["src/wrappers/wisardwrapper.cc:getActivationDegree", "src/wrappers/wisardwrapper.cc:_pyClassify", "src/common/utils.cc:calculateNumberOfRams"]}
{"id": "C97", "title": "Confidence of Wisard", "statement": "With returnConfidence, confidence lies in [0,1], is 0 for a tie, and is (b-s)/b for the best and second best counts.", "quantifier": "all models and batches", "why_tests_cant": "ties and zero counts", "anchors": ["src/wrappers/wisardwrapper.cc:getConfidence"]}
{"id": "C98", "title": "Class degrees of Wisard", "statement": "With returnClassesDegrees, classesDegrees has exactly one entry per trained class, in ascending order of label, each with its share of the counts.", "quantifier": "all models and batches", "why_tests_cant": "all models; float sums", "anchors": ["src/wrappers/wisardwrapper.cc:getClassesDegrees"]}
{"id": "C99", "title": "Activation degree of ClusWisard", "statement": "After any training calls, with returnActivationDegree the activationDegree is the number of RAMs that voted for the winning discriminator (one of the class it names, with the largest count) over the number of RAMs of that discriminator, as a float in [0,1].", "quantifier": "all histories of supervised, semi-supervised and unsupervised training, catching exceptions; all batches of equal-sized images", "why_tests_cant": "unbounded histories, float values", "anchors": ["src/wrappers/cluswisardwrapper.cc:pyClassify", "src/common/utils.cc:calculateNumberOfRams", "src/models/cluswisard/cluster.cc:makeDiscriminator"]}
{"id": "C100", "title": "Confidence and class degrees of ClusWisard", "statement": "classesDegrees has one entry per class, and confidence compares the winning class with the others.", "quantifier": "all models and batches", "why_tests_cant": "several discriminators per class", "anchors": ["src/wrappers/cluswisardwrapper.cc:pyClassify", "src/wrappers/cluswisardwrapper.cc:getClassesDegrees"]}
{"id": "C101", "title": "RAMDataHandle shows what a discriminator learned", "statement": "A RAMDataHandle opened on the data (or the .wdpkg file) of a saved discriminator holds exactly the contents of its RAMs, and get(ram, address) reads them.", "quantifier": "all reachable discriminators, file systems and memory layouts", "why_tests_cant": "tests compare a few cells of one file", "anchors": ["src/models/wisard/discriminator.cc:json", "src/models/wisard/ramdatahandle.cc:RAMDataHandle", "src/models/wisard/ramdatahandle.cc:get"]}
{"id": "C102", "title": "Keyword arguments of the Python constructors", "statement": "Wisard(a, **kwargs), ClusWisard(...) and Discriminator(...) have exactly the options given and the documented default for each other one, whatever the order of the arguments; unknown names are ignored, a wrong type throws, and the C++ constructor with the same options as JSON builds the same model.", "quantifier": "all sets of keyword arguments with distinct names", "why_tests_cant": "tests try a few combinations", "anchors": ["src/wrappers/wisardwrapper.cc:WisardWrapper", "src/wrappers/cluswisardwrapper.cc:ClusWisardWrapper", "src/wrappers/discriminatorwrapper.cc:DiscriminatorWrapper"]}
{"id": "C103", "title": "getsizeof grows by 12 bytes per learned pattern", "statement": "getsizeof() of a discriminator is its size when new plus 12 bytes for every different pattern each RAM was trained with; a Wisard adds up its labels. No call, even a throwing one, makes it smaller, untraining never changes it, and a reloaded model has the size of the saved one.", "quantifier": "all discriminators, Wisards and call histories", "why_tests_cant": "needs the number of distinct patterns over any history", "anchors": ["src/models/wisard/discriminator.cc:getsizeof", "src/models/wisard/ram.cc:getsizeof", "src/models/wisard/wisard.cc:getsizeof"]}
{"id": "C104", "title": "Training never makes a ClusWisard smaller", "statement": "getsizeof() after a training call is at least what it was before.", "quantifier": "all ClusWisards and training calls", "why_tests_cant": "needs all histories", "anchors": ["src/models/cluswisard/cluswisard.cc:getsizeof", "src/models/cluswisard/cluster.cc:getsizeof", "src/models/cluswisard/cluswisard.cc:trainUnsupervised"]}
{"id": "C105", "title": "ClusWisard validates its parameters", "statement": "ClusWisard(addressSize, minScore, threshold, discriminatorsLimit) creates a model exactly if 0 <= minScore <= 1, threshold >= 1 and discriminatorsLimit >= 1, and otherwise throws an exception naming the first parameter that is wrong.", "quantifier": "all parameter values, including NaN and the infinities", "why_tests_cant": "the parameters are unbounded and the NaN case is not on any boundary", "anchors": ["src/models/cluswisard/cluswisard.cc:checkConfigInputs", "src/models/cluswisard/cluswisard.cc:ClusWisard"]}
{"id": "C106", "title": "ClusWisard argument guards fire before anything is learned", "statement": "train of a non-empty batch with a confidence above the number of RAMs, with differently many images and labels, or semi-supervised with more labels than images throws and leaves the model unchanged.", "quantifier": "all models, batches and label maps", "why_tests_cant": "needs all batches and models", "anchors": ["src/models/cluswisard/cluswisard.cc:train", "src/models/cluswisard/cluswisard.cc:checkInputSizes"]}
{"id": "C107", "title": "A saved text is read back character by character", "statement": "The text that json() returns (and jsonConfig(), which is laid out with line breaks) is a JSON text; given as a string to the constructor of the same class it yields the object that C57, C60 and C75 describe, whatever characters the labels contain as long as they are UTF-8 (quotation marks, backslashes, control characters, multi-byte characters).", "quantifier": "all trained discriminators, Wisards and ClusWisards, all UTF-8 labels, both layouts", "why_tests_cant": "the escape rules, number formats and the parser must agree for every label, wiring and content; tests save a few models with plain labels", "anchors": ["src/libs/json.hpp: serializer::dump, dump_escaped, lexer::scan, parser::parse_internal", "src/models/wisard/wisard.cc: Wisard::json, Wisard(std::string)", "src/models/wisard/discriminator.cc: json, Discriminator(std::string)", "src/models/cluswisard/cluswisard.cc: json, ClusWisard(std::string)"]}
{"id": "C108", "title": "Any text given to a constructor yields an object or an exception", "statement": "Discriminator(text), Wisard(text) and ClusWisard(text) end for every text with an object or an exception. (False: a RAM content of a wrong length is read outside its string. Reading the text as JSON does end with a value or a JSON exception.)", "quantifier": "all texts, of any characters", "why_tests_cant": "the set of malformed texts is unbounded; fuzzing samples it", "anchors": ["src/libs/json.hpp: json::parse", "src/common/utils.cc: Base64::decode", "src/models/wisard/discriminator.cc: Discriminator(std::string)"]}
{"id": "C109", "title": "A truncated saved text is refused", "statement": "If a text saved by json() or jsonConfig() is cut anywhere before its last character, the constructor given the rest throws; no model with part of the contents is built.", "quantifier": "all savable discriminators, Wisards and ClusWisards, all cut positions", "why_tests_cant": "there are as many cut positions as characters, for each of unboundedly many models", "anchors": ["src/libs/json.hpp: lexer::scan, parser::parse_internal", "src/models/wisard/wisard.cc: Wisard(std::string)"]}
{"id": "C110", "title": "A saved text with anything but white space appended is refused", "statement": "White space after a saved text does not matter; with anything else appended the constructor throws. (False for a zero character, after which the rest of the text is ignored; true otherwise.)", "quantifier": "all saved texts and all appended characters", "why_tests_cant": "must hold for every appended text", "anchors": ["src/libs/json.hpp: parser::parse (strict), lexer::scan", "src/models/wisard/wisard.cc: Wisard(std::string)"]}
{"id": "C111", "title": "The halving bleach search stops at the first threshold of its sequence that breaks the tie", "statement": "BBleaching::make with bleaching on stops for all votes below 2^30 and returns the counts at the first of the thresholds B/2, B/2+B/4, B/2+B/4+B/8, ... (B the highest vote, each term rounded down) at which the highest positive count is not shared, or at the last of them; for higher votes the same or, when the tie persists for 29 thresholds, an undefined conversion.", "quantifier": "all vote tables", "why_tests_cant": "unboundedly many vote tables; the number of rounds depends on the votes", "anchors": ["src/common/bleaching.cc: BBleaching::make, getBiggestValue, isThereAmbiguity"]}
{"id": "C112", "title": "The halving bleach with bleaching off counts the RAMs that answered", "statement": "With bleaching off, BBleaching::make returns for each class the number of votes of at least 1, as Bleaching::make does. (False: the threshold is half the highest vote, 0 if that is 1.)", "quantifier": "all vote tables", "why_tests_cant": "unboundedly many vote tables", "anchors": ["src/common/bleaching.cc: BBleaching::make"]}
{"id": "C113", "title": "A fractional number is written so that the same number is read", "statement": "json() writes a finite double (minScore is a float widened to double) with at most 17 significant digits and 24 characters, never overruns its 64 character buffer, never loops and never shifts by an invalid amount; the digits denote a number to which only that double is nearest, so that a correctly rounding reader gets back the same double, and the same float.", "quantifier": "all finite doubles (2^64 bit patterns), all finite floats", "why_tests_cant": "there are 2^64 doubles; the algorithm multiplies by cached approximations of powers of ten and its error bounds must hold for each of them", "anchors": ["src/libs/json.hpp: dtoa_impl::grisu2, grisu2_digit_gen, grisu2_round, compute_boundaries, get_cached_power_for_binary_exponent, format_buffer, to_chars, serializer::dump_float", "src/models/cluswisard/cluswisard.cc: getConfig"]}
{"id": "C114", "title": "A label can be saved exactly if it is UTF-8", "statement": "A string (a label, a path in the saved text) is written by json() and jsonConfig() if and only if its bytes are the UTF-8 encoding of some sequence of Unicode scalar values (no surrogates, no overlong forms, nothing above U+10FFFF); otherwise an exception is thrown and no text is returned.", "quantifier": "all byte strings; all Wisards and ClusWisards with any labels", "why_tests_cant": "the check is a table driven automaton; tests use a few labels", "anchors": ["src/libs/json.hpp: serializer::decode, dump_escaped", "src/models/wisard/wisard.cc: json, jsonConfig", "src/models/cluswisard/cluswisard.cc: json"]}
{"id": "C115", "title": "Whatever was loaded can be saved again", "statement": "A JSON value obtained from any text can be written again, in both layouts, and the new text is read as the same value; in particular the labels of a Wisard or ClusWisard constructed from a text (escapes, surrogate pairs, repeated keys, any numbers) are UTF-8, so C114 does not keep it from being saved.", "quantifier": "all texts", "why_tests_cant": "the parser must never let a value through that the writer refuses; unboundedly many texts", "anchors": ["src/libs/json.hpp: lexer::scan_string, get_codepoint, parser::parse_internal, serializer::dump"]}
{"id": "C116", "title": "A data set file that was only partly written is noticed", "statement": "If the process is killed or the disk fills up while save is writing, so that only the first k bytes of the file exist, loading it gives the saved data set or an exception.", "quantifier": "all data sets, paths and numbers k of bytes written", "why_tests_cant": "crash points: every k", "anchors": ["src/data/dataset.cc:save", "src/data/dataset.cc:DataSet"]}
{"id": "C117", "title": "A RAM data file that was only partly written is noticed", "statement": "If only the first k bytes of the file that json(true,path) writes reach the disk, then json reports it, or building a discriminator from its text gives the saved discriminator or an exception.", "quantifier": "all trained discriminators, paths and numbers k of bytes written", "why_tests_cant": "crash points: every k", "anchors": ["src/models/wisard/discriminator.cc:getRAMsData", "src/models/wisard/discriminator.cc:setRAMsData", "src/models/wisard/ramdatahandle.cc:setData"]}
{"id": "C118", "title": "Which texts Base64 decoding reads safely", "statement": "Base64::decode(t) returns normally on every non-empty text whose length is a multiple of four, whatever its characters; on another text of two or more characters it throws length_error if its last two characters announce more padding than 3*(length/4), returns normally if an earlier complete group of four has '=' in third or fourth place while the result still has room, and reads or writes outside its strings in all other cases.", "quantifier": "all texts", "why_tests_cant": "256^n texts and the position of every '='", "anchors": ["src/common/utils.cc:Base64::decode"]}
{"id": "C119", "title": "Clusters do not interfere with each other", "statement": "In every program that creates, loads, trains, queries, reassigns and destroys Cluster objects without copying one, each call has the outcome it would have if each cluster held its discriminators by value: training, loading, replacing or destroying one cluster changes nothing that another answers.", "quantifier": "all sequences of uses of any number of Cluster objects without a copy", "why_tests_cant": "histories over aliased heap objects", "anchors": ["src/models/cluswisard/cluster.cc:Cluster::train", "src/models/cluswisard/cluster.cc:Cluster::makeDiscriminator", "src/models/cluswisard/cluster.cc:Cluster::~Cluster"]}
{"id": "C120", "title": "A copy of a cluster is independent", "statement": "After y = x for two Cluster objects, training x does not change what y answers.", "quantifier": "all clusters, all sequences of train calls after the copy", "why_tests_cant": "histories over aliased heap objects", "anchors": ["src/models/cluswisard/cluster.cc:Cluster"]}
{"id": "C121", "title": "No destroyed discriminator is ever used", "statement": "Whatever a program creates, loads, copies, assigns and destroys, every discriminator a Cluster object refers to still exists.", "quantifier": "all sequences of uses of any number of Cluster objects, copies included", "why_tests_cant": "use after free depends on the history", "anchors": ["src/models/cluswisard/cluster.cc:Cluster::~Cluster", "src/models/cluswisard/cluster.cc:Cluster::train"]}
{"id": "C122", "title": "Destroying a cluster releases its discriminators", "statement": "Once every Cluster object that refers to a discriminator is destroyed, that discriminator is destroyed too.", "quantifier": "all sequences of uses of Cluster objects", "why_tests_cant": "leaks have no observable result in a unit test", "anchors": ["src/models/cluswisard/cluster.cc:Cluster::~Cluster"]}
{"id": "C123", "title": "A missing file is reported", "statement": "Loading a DataSet, a RAMDataHandle or a Discriminator from a file that cannot be opened raises an exception.", "quantifier": "all file systems, file names and configurations", "why_tests_cant": "absence of a file is an environment state; silence looks like success", "anchors": ["src/data/dataset.cc:DataSet(std::string)", "src/models/wisard/ramdatahandle.cc:RAMDataHandle", "src/models/wisard/discriminator.cc:setRAMsData"]}
{"id": "C124", "title": "Calls of make() sample afresh", "statement": "Successive calls of Synthesizer.make() draw independently of each other: two calls can return different images whatever the time between them.", "quantifier": "all generators, clocks, synthesizers and histories of the process", "why_tests_cant": "depends on the wall clock: a test that sleeps passes, one that loops sees copies", "anchors": ["src/synthetic_data/synthesizers.cc:make", "src/common/utils.cc:randint"]}
{"id": "C125", "title": "Models built one after the other draw different mappings", "statement": "Discriminators, Wisards and ClusWisards built one after the other with the same arguments draw their random mappings independently; each mapping drawn is a proper one.", "quantifier": "all generators, clocks, arguments and histories of the process", "why_tests_cant": "depends on the wall clock and on the state of the C library", "anchors": ["src/models/wisard/discriminator.cc:Discriminator", "src/models/wisard/wisard.cc:Wisard", "src/common/utils.cc:randint"]}
{"id": "C126", "title": "Different models are saved to different files", "statement": "Two discriminators saved with json(true, path) under the same path are written to different files, and each text loads its own model again.", "quantifier": "all generators, clocks, pairs of training histories, file systems", "why_tests_cant": "file names are drawn from a generator that is seeded with the clock", "anchors": ["src/models/wisard/discriminator.cc:getRAMsData", "src/common/utils.cc:getRandomString", "src/common/utils.cc:randint"]}
{"id": "C127", "title": "A RAM with random addresses watches several pixels", "statement": "RAM(addressSize, entrySize) wires its inputs to pixels drawn independently from [0, entrySize).", "quantifier": "all generators, clocks, sizes", "why_tests_cant": "depends on the wall clock", "anchors": ["src/models/wisard/ram.cc:RAM", "src/models/wisard/ram.cc:generateRandomAddresses", "src/common/utils.cc:randint"]}
{"id": "C128", "title": "Mental images of a ClusWisard", "statement": "After any supervised and semi-supervised training calls getMentalImages has an entry for exactly the labels learned, with one image per discriminator of the label's cluster, in order; pixel p of an image counts, for every RAM input wired to p, the images that discriminator learned whose pixel p is on. getMentalImage(label) of a learned label gives the same images and changes nothing.", "quantifier": "all call sequences, labels, images, random wirings and hash map orders", "why_tests_cant": "quantifies over all training histories, wirings and enumeration orders", "anchors": ["src/models/cluswisard/cluswisard.cc:getMentalImages", "src/models/cluswisard/cluswisard.cc:getMentalImage", "src/models/cluswisard/cluster.cc:getMentalImages"]}
{"id": "C129", "title": "Leaving examples out and training them again restores the classifier", "statement": "From any state reached by valid calls: leaveOneOut or leaveMoreOut of images that were trained before under their labels, followed by training the same examples again in any order, gives back exactly the same classifier, and in between every well-formed image is classified; hence a whole leave-one-out or k-fold cross-validation loop leaves the model unchanged. The same holds for untrain and train of a Discriminator.", "quantifier": "all configurations, histories of train/leaveOneOut/leaveMoreOut calls, folds of trained examples (repetitions included), orders of retraining, numbers of folds", "why_tests_cant": "tests try a few folds; the claim is about every history, including images that share RAM addresses with others", "anchors": ["src/models/wisard/wisard.cc:leaveOneOut", "src/models/wisard/wisard.cc:leaveMoreOut", "src/models/wisard/wisard.cc:train", "src/models/wisard/discriminator.cc:untrain"]}
{"id": "C130", "title": "A left-out example leaves no trace", "statement": "After leaveMoreOut of trained examples classify answers, for every image, as a classifier trained on the remaining examples only.", "quantifier": "all configurations, training histories, folds and images", "why_tests_cant": "compares two unbounded families of histories", "anchors": ["src/models/wisard/wisard.cc:leaveOneOut", "src/models/wisard/wisard.cc:leaveMoreOut", "src/models/wisard/wisard.cc:classify", "src/models/wisard/ram.cc:untrain"]}
{"id": "C131", "title": "Labels of a ClusWisard do not interfere", "statement": "A labelled train call, whatever its outcome, does not change what a ClusWisard answers about a label it does not name (mental images, and with bleaching off the vote counts of its discriminators); supervised calls do not change the unsupervised answers and unsupervised calls do not change the supervised ones.", "quantifier": "all ClusWisard states, calls, labels, images and outcomes", "why_tests_cant": "relates two states for every call and every other label", "anchors": ["src/models/cluswisard/cluswisard.cc:train", "src/models/cluswisard/cluswisard.cc:trainUnsupervised", "src/models/cluswisard/cluswisard.cc:getMentalImages", "src/models/cluswisard/cluster.cc:train"]}
{"id": "C132", "title": "With one discriminator per label ClusWisard is Wisard", "statement": "A ClusWisard with discriminatorsLimit 1, trained on labelled images, classifies every image as a Wisard with the same options, the same random choices and the same training.", "quantifier": "all options, batches, random choices and images", "why_tests_cant": "compares two classifiers over all histories", "anchors": ["src/models/cluswisard/cluswisard.cc:train", "src/models/cluswisard/cluswisard.cc:classify", "src/models/cluswisard/cluster.cc:train", "src/models/wisard/wisard.cc:train", "src/models/wisard/wisard.cc:classify", "src/common/bleaching.cc"]}
{"id": "C133", "title": "Options given as JSON are taken as written or refused", "statement": "A constructor that takes its options as JSON uses each option as it is written there, uses the documented default for an absent or null option, and raises an error if a value is of another kind than the option.", "quantifier": "all option objects, texts and option values", "why_tests_cant": "there are infinitely many values per option", "anchors": ["src/models/wisard/wisard.cc:Wisard", "src/models/cluswisard/cluswisard.cc:ClusWisard", "src/libs/json.hpp"]}
{"id": "C134", "title": "A loaded ClusWisard has a configuration its constructor accepts", "statement": "ClusWisard(text) refuses a text whose minScore, threshold or discriminatorsLimit the ordinary constructor refuses.", "quantifier": "all texts", "why_tests_cant": "quantifies over all texts", "anchors": ["src/models/cluswisard/cluswisard.cc:ClusWisard"]}
{"id": "C135", "title": "The images of a batch are answered independently", "statement": "Classifying a batch gives each image the answer it gets when classified alone, in any company and order; if an image fails, the batch fails as the first such image does alone.", "quantifier": "all classifiers, batches and images", "why_tests_cant": "all batches and classifier states", "anchors": ["src/models/wisard/wisard.cc:classify", "src/models/cluswisard/cluswisard.cc:classify", "src/models/cluswisard/cluswisard.cc:classifyUnsupervised", "src/wrappers/wisardwrapper.cc:classify", "src/wrappers/cluswisardwrapper.cc:classify"]}
{"id": "C136", "title": "Training images are recalled", "statement": "Every image a Wisard was trained with is classified as the label it was trained under.", "quantifier": "all configurations, random choices, training histories and training images", "why_tests_cant": "quantifies over all wirings and training sets", "anchors": ["src/models/wisard/wisard.cc:train", "src/models/wisard/wisard.cc:classify", "src/models/wisard/ram.cc:getVote", "src/common/bleaching.cc"]}
{"id": "C137", "title": "Seeing the same examples again changes nothing", "statement": "Training a Wisard again, any number of times and in any order and batches, on the examples it was trained with changes neither the degrees nor the answer of any image.", "quantifier": "all configurations, random choices, training sets, numbers of repetitions, orders and images", "why_tests_cant": "compares unboundedly long histories", "anchors": ["src/models/wisard/wisard.cc:train", "src/models/wisard/wisard.cc:classify", "src/common/bleaching.cc"]}
{"id": "C138", "title": "Answers are trained labels", "statement": "Every answer of a trained Wisard is a label given by some training call; a Wisard that knows one label always answers it, and an untrained one answers the empty label.", "quantifier": "all configurations, histories and images", "why_tests_cant": "quantifies over all histories and images", "anchors": ["src/models/wisard/wisard.cc:classify", "src/common/bleaching.cc:getBiggestCandidate"]}
{"id": "C139", "title": "Labels are only names", "statement": "Renaming all labels consistently renames the answers and changes nothing else.", "quantifier": "all Wisards, injective renamings, histories and images", "why_tests_cant": "quantifies over all renamings", "anchors": ["src/models/wisard/wisard.cc", "src/common/bleaching.cc", "src/common/bleaching.cc:getBiggestCandidate"]}
{"id": "C140", "title": "Pixel positions have no meaning of their own", "statement": "Permuting the pixels of all images together with the configured wiring changes no degree and no answer.", "quantifier": "all permutations, configurations with explicit wiring, histories and images", "why_tests_cant": "quantifies over all permutations and histories", "anchors": ["src/models/wisard/wisard.cc", "src/models/wisard/discriminator.cc:setRAMByMapping", "src/models/wisard/discriminator.cc:setRAMByIndex", "src/models/wisard/ram.cc:getIndex"]}
{"id": "C141", "title": "The output of KernelCanvas reflects the data", "statement": "The kernels a row switches on are really the nearest to its normalised values (as comparable numbers), whatever the data; so sequences that differ can be told apart.", "quantifier": "all parameters, generators, tanh and sort functions, and sequences", "why_tests_cant": "quantifies over all sequences of doubles and any libm and sort", "anchors": ["src/binarization/kernelcanvas.cc:multDimStd", "src/binarization/kernelcanvas.cc:calculatePoint", "src/binarization/kernelcanvas.cc:activateKernels"]}
{"id": "C142", "title": "The order of the training examples does not matter to ClusWisard", "statement": "Training a ClusWisard on the same labelled examples in two orders gives the same answers.", "quantifier": "all classifiers, example lists and reorderings", "why_tests_cant": "quantifies over all permutations of all training sets and all earlier histories", "anchors": ["src/models/cluswisard/cluswisard.cc:train", "src/models/cluswisard/cluster.cc:train"]}
{"id": "C143", "title": "Any wiring can be drawn at random", "statement": "Without indexes or mapping, every assignment of different pixels to the RAMs is a possible outcome of construction.", "quantifier": "all argument values, C libraries, clocks and histories of the generator", "why_tests_cant": "no run can show that an outcome never occurs; quantifies over all generators and times", "anchors": ["src/models/wisard/discriminator.cc:setRAMShuffle", "src/models/wisard/wisard.cc:Wisard", "src/common/utils.cc:randint"]}
{"id": "C144", "title": "verbose reports progress and nothing else", "statement": "With verbose on, each batch call writes one progress report per image, in order, and ends the line when it is done; if an image makes it fail the last report is the one of that image. With verbose off nothing is written. The results are the same either way.", "quantifier": "all classifiers, images, labels, outcomes (including failures)", "why_tests_cant": "quantifies over all inputs and the image at which a call may fail; tests do not capture std::cout", "anchors": ["src/models/wisard/wisard.cc:train", "src/models/wisard/wisard.cc:leaveMoreOut", "src/models/wisard/wisard.cc:_classify", "src/models/cluswisard/cluswisard.cc:train", "src/wrappers/wisardwrapper.cc:_pyClassify", "src/wrappers/cluswisardwrapper.cc:pyClassify"]}
{"id": "C145", "title": "Reporting options do not influence learning or answers", "statement": "Changing verbose, returnConfidence, returnActivationDegree or returnClassesDegrees changes neither what any history of calls learns, nor whether calls fail, nor which label is answered.", "quantifier": "all option values, histories and images", "why_tests_cant": "quantifies over all histories of calls", "anchors": ["src/models/wisard/wisard.cc:Wisard", "src/models/cluswisard/cluswisard.cc:ClusWisard", "src/wrappers/wisardwrapper.cc:setClassifyOutput", "src/wrappers/cluswisardwrapper.cc:pyClassify"]}
{"id": "C146", "title": "A saved text is determined by the model", "statement": "Saving the same model twice, or saving it, reloading it and saving it again without training, gives the same text; and two models with the same text are the same model.", "quantifier": "all models reached by training, all orders in which the hash tables of the RAMs may be traversed, file systems and paths", "why_tests_cant": "Needs every model and every traversal order of the hash tables; a test sees one standard library's order.", "anchors": ["src/models/wisard/ram.cc", "src/models/wisard/discriminator.cc: getRAMsData, json", "src/models/wisard/wisard.cc: json", "src/models/cluswisard/cluswisard.cc: json", "src/models/wisard/ramdatahandle.cc: data"]}
{"id": "C147", "title": "A saved text may be rewritten as JSON allows", "statement": "A JSON text (RFC 8259) is read as the value it stands for; what json() and jsonConfig() write is a JSON text, and whoever writes the same value down differently - white space, order of members, escapes in strings, repeated later members - gets the same model back.", "quantifier": "all JSON texts and values, all models reached by training", "why_tests_cant": "there are infinitely many ways to write a value down, and tests try a few", "anchors": ["src/libs/json.hpp: lexer, parser", "src/models/wisard/discriminator.cc: Discriminator(std::string)", "src/models/wisard/wisard.cc: Wisard(std::string)", "src/models/cluswisard/cluswisard.cc: ClusWisard(std::string)"]}
{"id": "C148", "title": "Only JSON texts are read", "statement": "A text given to the constructors that is not a JSON text (RFC 8259) makes them throw; nothing else is taken for a model.", "quantifier": "all character sequences", "why_tests_cant": "quantifies over all character sequences", "anchors": ["src/libs/json.hpp: lexer, parser", "src/models/wisard/wisard.cc: Wisard(std::string)"]}
{"id": "C149", "title": "Synthetic images stem from the training images of their label", "statement": "Take the mental image of a label from getMentalImages() and give it to a Synthesizer. Whatever was trained and left out before, and whatever the random generator returns: mental images exist for exactly the trained labels; every image make() returns has the length of the training images and only zeros and ones, so the classifier accepts it; and a pixel that is on in it was on in at least one image trained under that label. After training only, with every pixel wired once and some pixel on, make() always succeeds and returns exactly the pixels that are on in more than k of the label's images, for a threshold k between 0 and the highest count minus one (every such k is a possible draw); so the result is never empty, contains every pixel common to all images of the label, and the classifier answers it with some trained label.", "quantifier": "all configurations, histories of train/leaveOneOut/leaveMoreOut calls, labels, hash-map orders, random wirings and random draws", "why_tests_cant": "the statement composes three components over every history and every random draw; tests see one draw of one model", "anchors": ["src/models/wisard/wisard.cc", "src/synthetic_data/synthesizers.cc", "src/models/wisard/discriminator.cc"]}
{"id": "C150", "title": "A synthetic image is recognised as the label it was made from", "statement": "An image made by a Synthesizer from the mental image of a label is classified as that label by the classifier the mental image came from.", "quantifier": "all trained classifiers, labels and draws", "why_tests_cant": "depends on all training data and every draw", "anchors": ["src/models/wisard/wisard.cc", "src/synthetic_data/synthesizers.cc"]}
{"id": "C151", "title": "Pixel values are only names", "statement": "Renaming the values of each pixel one to one (inverting black and white, using a larger base, permuting grey levels), in all training and test images, changes neither the degrees nor the answers of a Wisard, whatever its wiring and history; with ignoreZero this holds of renamings that leave 0 alone.", "quantifier": "all configurations, bases, random wirings, call histories, images and one-to-one renamings of values per pixel", "why_tests_cant": "a metamorphic relation over all histories and renamings, including random wirings", "anchors": ["src/models/wisard/ram.cc:getIndex", "src/models/wisard/wisard.cc:train", "src/models/wisard/wisard.cc:classify"]}
{"id": "C152", "title": "Pixel values are only names to ClusWisard", "statement": "Renaming the values of each pixel one to one inside the base, in all training and test images, changes nothing a ClusWisard does with them: every supervised, semi-supervised or unsupervised call has the same outcome (the same error included), and every image then gets the same votes, the same label and the same unsupervised cluster; with ignoreZero this holds of renamings that leave 0 alone.", "quantifier": "all configurations, random wirings, histories of calls with any outcome, images and one-to-one renamings of values per pixel", "why_tests_cant": "a metamorphic relation over all histories and renamings; training itself depends on votes, so one difference would change every later cluster", "anchors": ["src/models/cluswisard/cluster.cc:train", "src/models/cluswisard/cluswisard.cc:train", "src/models/wisard/ram.cc:getIndex"]}
{"id": "C153", "title": "Learning reinforces", "statement": "When further training examples all carry label l, an image the Wisard answers with l keeps that answer; when examples of l are left out, no image changes its answer to l.", "quantifier": "all states, options, images, labels and further calls", "why_tests_cant": "monotonicity over all states and further histories, through the search for a bleaching threshold", "anchors": ["src/models/wisard/wisard.cc:train", "src/models/wisard/wisard.cc:leaveOneOut", "src/common/bleaching.cc:makeConfidenceless"]}
{"id": "C154", "title": "A ClusWisard recalls its training images", "statement": "An image trained under a label is classified with that label when, for every other label, one pixel distinguishes it from all images that label may have learned.", "quantifier": "every configuration, every history of train calls (labelled and semi-supervised), every image given with a label, every random choice", "why_tests_cant": "Depends on how learning spreads an image over the discriminators of a label and on how bleaching treats ties between them, over all histories.", "anchors": ["src/models/cluswisard/cluswisard.cc:classify", "src/models/cluswisard/cluster.cc:train", "src/common/bleaching.cc:makeConfidenceless"]}
{"id": "C155", "title": "The discriminators limit matters only when reached", "statement": "Training the same history with another discriminatorsLimit gives the same discriminators, answers and mental images, as long as the smaller of the two limits never has to stop a new discriminator: lowering the limit to the largest number of discriminators any label ever held changes nothing, and raising a limit that is never reached changes nothing.", "quantifier": "every pair of limits, every history of train, semi-supervised train and trainUnsupervised calls with any images and labels, every random choice", "why_tests_cant": "A relation between two runs over all histories.", "anchors": ["src/models/cluswisard/cluster.cc:train", "src/models/cluswisard/cluswisard.cc:train", "src/models/cluswisard/cluswisard.cc:trainUnsupervised"]}
{"id": "C156", "title": "Training in portions is training at once", "statement": "Calling train (Wisard or ClusWisard) or leaveMoreOut once with a list of images and labels, or in several calls with consecutive portions of it, has the same outcome (success or the same exception) and leaves the same model.", "quantifier": "every model state, every list of images of one size with their labels (valid or not), every way of cutting it into non-empty portions, every random choice", "why_tests_cant": "A relation between two call sequences, for all lists, states and failures.", "anchors": ["src/models/wisard/wisard.cc:train", "src/models/wisard/wisard.cc:leaveMoreOut", "src/models/cluswisard/cluswisard.cc:train"]}
{"id": "C157", "title": "KernelCanvas feeds Wisard", "statement": "A Wisard for images of numberOfKernels*bitsByKernel pixels accepts whatever KernelCanvas.transform makes of any labelled sequences of rows of the declared dimension: training succeeds, the transform of every further sequence is answered with one of the labels given, and without bleaching the transform of a training sequence has the full count for its label, a count no label exceeds.", "quantifier": "every canvas (random kernels, degrees, bits), every data (NaN and infinities included), every tanh and every order std::sort gives equal elements, every configuration and wiring", "why_tests_cant": "A statement about two components together, for all data.", "anchors": ["src/binarization/kernelcanvas.cc:transform", "src/models/wisard/wisard.cc:train", "src/models/wisard/wisard.cc:classify"]}
{"id": "C158", "title": "The labels of a ClusWisard are only names", "statement": "If every label given to a ClusWisard is replaced by another name, different labels by different names, then the calls have the same outcomes, the clusters and their votes are the same under the new names, and classify gives the new names of the old answers.", "quantifier": "every ClusWisard, every history of train, semi-supervised train and trainUnsupervised calls, every renaming, every image and every random choice", "why_tests_cant": "Tests use one set of label names; the claim is about all pairs of namings and fails only on ties or for labels that contain colons.", "anchors": ["src/models/cluswisard/cluswisard.cc:train", "src/models/cluswisard/cluswisard.cc:classify", "src/common/bleaching.cc:getBiggestCandidate"]}
{"id": "C159", "title": "Pixel positions mean nothing to randomly wired classifiers", "statement": "For a Wisard or ClusWisard without configured wiring, moving the pixels of every image by one fixed permutation changes nothing observable: to every run there is a run on the moved images (with other random choices the generator may make) in which every train, leave-out, semi-supervised and unsupervised call succeeds or fails in the same way, and afterwards every image gets the same votes and answers as its moved copy.", "quantifier": "all permutations of the pixel positions, all image sizes, all histories of calls including failing ones, all random choices", "why_tests_cant": "The wiring is random, so a test would compare two runs that differ anyway; the claim is about the set of all possible runs for all permutations.", "anchors": ["src/models/wisard/discriminator.cc:Discriminator::setRAMShuffle", "src/models/wisard/ram.cc:RAM::getVote", "src/models/wisard/wisard.cc:Wisard::train", "src/models/cluswisard/cluster.cc:Cluster::train", "src/models/cluswisard/cluswisard.cc:ClusWisard::train"]}
{"id": "C160", "title": "Similar images get similar votes", "statement": "Replacing an image by one that differs from it in a few pixels changes the votes of at most as many RAMs as there are RAM inputs wired to those pixels; so, with bleaching off, the count of every label changes by at most the number of differing pixels (plus the inputs completeAddressing added to a random wiring), and an image close to a training image of a label keeps nearly all the RAMs of that label, as does the answer.", "quantifier": "all discriminators and Wisards, wirings, histories of training, untraining and leaving out, and pairs of images", "why_tests_cant": "It is a bound over all pairs of images and all histories and random wirings; a test sees a few pairs.", "anchors": ["src/models/wisard/ram.cc:RAM::getVote", "src/models/wisard/discriminator.cc:Discriminator::classify", "src/models/wisard/wisard.cc:Wisard::classify", "src/common/bleaching.cc:Bleaching::make"]}
{"id": "C161", "title": "Examples of one label only win or lose answers for that label", "statement": "When all further train and leave-out calls name one label L, an image whose answer changes was answered L before or is answered L afterwards; it never moves between two other labels.", "quantifier": "all states, options, images, labels and further calls, failing ones included", "why_tests_cant": "It quantifies over all model states and call sequences; the counterexamples with bleaching need a particular constellation of counters.", "anchors": ["src/models/wisard/wisard.cc:Wisard::train", "src/models/wisard/wisard.cc:Wisard::leaveOneOut", "src/models/cluswisard/cluswisard.cc:ClusWisard::train", "src/common/bleaching.cc:Bleaching::make"]}
{"id": "C162", "title": "Pixels no RAM reads do not matter", "statement": "Training, untraining or classifying with images that differ only in pixels outside the wiring of the labels concerned (left-over indexes, pixels absent from a mapping) gives exactly the same results, the same errors and the same model.", "quantifier": "all states of a Discriminator or Wisard, all histories of train and leave-out calls including failing ones, all pairs of images that agree on the pixels read", "why_tests_cant": "Ranges over all wirings, states, histories and pixel values.", "anchors": ["src/models/wisard/ram.cc:getIndex", "src/models/wisard/discriminator.cc:setRAMByIndex", "src/models/wisard/wisard.cc:train"]}
{"id": "C163", "title": "Damage to one label's file concerns that label only", "statement": "After json(true,path), whatever happens to the data files: if the text loads, the options and the set of labels are those saved and every label whose own file is unchanged has exactly the discriminator that was saved; it can only fail to load if the file of some label exists and was changed. Likewise for a ClusWisard, with one file per discriminator of each label and of the unsupervised cluster: every label keeps its number of discriminators and each discriminator whose file is unchanged is the one saved.", "quantifier": "all trained Wisards, paths and later states of the file system", "why_tests_cant": "Every damage pattern of every file, unboundedly many.", "anchors": ["src/models/wisard/wisard.cc:Wisard", "src/models/wisard/discriminator.cc:setRAMsData", "src/models/wisard/wisard.cc:getClassesJSON"]}
{"id": "C164", "title": "bleachingActivated and confidence only select the votes that count", "statement": "Two classifiers that differ only in bleachingActivated and confidence, given the same accepted training calls, learn the same. For the same image, bleaching never raises the count of a label, and neither does a higher confidence; and if without bleaching one label leads every other by at least the confidence, bleaching changes neither the counts nor the answer. The same holds for the discriminators of a ClusWisard trained with labels.", "quantifier": "all states and histories, images, confidence values", "why_tests_cant": "universally quantified over states, votes and options", "anchors": ["src/common/bleaching.cc:makeConfidenceless", "src/models/wisard/wisard.cc:classify", "src/models/cluswisard/cluswisard.cc:classify"]}
{"id": "C165", "title": "The clusters of a loaded ClusWisard have its configuration", "statement": "After ClusWisard(text) every cluster, labelled or unsupervised, has the addressSize, minScore, threshold, discriminatorsLimit, completeAddressing, ignoreZero and base of the ClusWisard itself (addressSize and threshold as unsigned ints), whatever the text says about that cluster, so further training follows one configuration.", "quantifier": "all texts that load, all file systems", "why_tests_cant": "universally quantified over texts", "anchors": ["src/models/cluswisard/cluswisard.cc:ClusWisard", "src/models/cluswisard/cluster.cc:Cluster"]}
{"id": "C166", "title": "Learning is additive", "statement": "A discriminator trained with xs and then ys gives, for every image and RAM, the sum of the votes of a copy trained with xs only and one trained with ys only; its number of trainings and its mental image are the sums too. The mental images of a Wisard with configured wiring that made two lists of training calls are, label by label and pixel by pixel, the sums of those of two Wisards that made one list each (a label without image counting as zero).", "quantifier": "all constructors, example lists, call lists, labels, query images and hash map orders", "why_tests_cant": "a test adds up a few votes", "anchors": ["src/models/wisard/discriminator.cc:train", "src/models/wisard/ram.cc:getVote", "src/models/wisard/discriminator.cc:getMentalImage", "src/models/wisard/wisard.cc:getMentalImages"]}
{"id": "C167", "title": "Among labels wired alike, more examples mean more votes", "statement": "In a Wisard whose labels A and B watch the same pixels (indexes, or the same mapping), if every training example of B was also given for A, at least as often, then whatever image is classified A has at least as many votes as B when the answer is chosen, and B is answered only if they have equally many and A does not come after B alphabetically; with the same examples they always have the same votes.", "quantifier": "all configurations with fixed wiring, all training histories and images", "why_tests_cant": "a test compares two labels on some images; the claim is about all images and the threshold bleaching happens to stop at", "anchors": ["src/models/wisard/wisard.cc:classify", "src/common/bleaching.cc:Bleaching::make"]}
{"id": "C168", "title": "Threads working on different labels do not interfere", "statement": "If several threads call train, leaveOneOut and leaveMoreOut of one Wisard (or train of one ClusWisard), each with its own labels, then whatever the order in which the calls happen each thread sees the same results and exceptions and the model in the end is the same; threads that only train may even share labels of a Wisard whose wiring is fixed.", "quantifier": "all schedules of all lists of calls of any number of threads, failing calls included, from every state", "why_tests_cant": "tests run a few schedules", "anchors": ["src/models/wisard/wisard.cc:train", "src/models/wisard/wisard.cc:leaveOneOut", "src/models/cluswisard/cluswisard.cc:train", "src/wisard_bind.cc"]}
{"id": "C169", "title": "The address space bounds the size of a model and of its saved text", "statement": "Training never makes a model larger than its address space allows: of a RAM with k positions in base b, getsizeof() grows by at most 12 bytes for every distinct pattern it can show, b^k of them, and by at most 12 bytes for every image trained, however many images and however often; the saved text of a discriminator has 16 characters for each pattern learned and at most 16 for each pattern that can be shown, so that a discriminator whose address space fits the text can be saved and read back after any training history.", "quantifier": "every discriminator and Wisard constructed, every history of trainings and untrainings", "why_tests_cant": "The bound must hold for histories of every length; a test trains some images and looks at one size.", "anchors": ["src/models/wisard/ram.cc:train", "src/models/wisard/discriminator.cc:getsizeof", "src/models/wisard/discriminator.cc:getRAMsData", "src/models/wisard/wisard.cc:getsizeof"]}
{"id": "C170", "title": "Copies of one image stay in one discriminator", "statement": "If every image trained with a label is a copy of the same image, the ClusWisard keeps one discriminator for that label, and its training counter is the number of copies, however many calls they came in and whatever the other labels learned in between: repeating an image never splits its class.", "quantifier": "every configuration without ignoreZero, every image, every history of labelled training calls whose images for the label are all the same", "why_tests_cant": "The score is a single-precision quotient compared with a single-precision limit that rises with every copy; a test repeats an image a few times.", "anchors": ["src/models/cluswisard/cluster.cc:train", "src/models/cluswisard/cluster.cc:getScore", "src/models/cluswisard/cluswisard.cc:train"]}
{"id": "C171", "title": "An image nobody knows is answered with the last label", "statement": "When no RAM of any label has seen what it sees of an image, all counts are 0 and classify gives no sign of it: a trained Wisard answers with the label that comes last in the alphabet, whatever the labels learned and however often, with or without bleaching; a trained ClusWisard answers with the label of the discriminator whose name \"label::number\" comes last.", "quantifier": "every configuration, every training history, every image without a known pattern", "why_tests_cant": "The answer must be the same for every history and wiring; a test sees one unknown image of one model.", "anchors": ["src/common/bleaching.cc:getBiggestCandidate", "src/models/wisard/wisard.cc:classify", "src/models/cluswisard/cluswisard.cc:classify"]}
{"id": "C172", "title": "A dictionary that names every image is a list of labels", "statement": "Training a ClusWisard with a dictionary of labels {0: l0, 1: l1, ...} that names every image is training with the list [l0, l1, ...]: the same outcome, the same exception if there is one, and the same model afterwards, in every state the model can be in.", "quantifier": "every ClusWisard in any state, every non-empty batch of images and labels", "why_tests_cant": "The two overloads have separate code; a test compares them on one batch.", "anchors": ["src/models/cluswisard/cluswisard.cc:train"]}
{"id": "C173", "title": "No list of images makes a Wisard run into undefined behaviour", "statement": "Take a new Wisard and any sequence of train (non-empty batches), leaveOneOut and leaveMoreOut calls, whose images are arbitrary lists (any integers, any lengths, different lengths in one batch) or well-formed BinInputs, and whose labels are arbitrary (too few, too many, unknown), handing over fewer than 2^31-2 images in all, by a caller that catches exceptions and goes on. Every call returns or throws one of the library's exceptions, and so does every later classification: there is no out-of-range access, no signed overflow, no endless loop.", "quantifier": "all option settings with a safe wiring (default wiring: always), all call sequences, all images and labels, both evaluation orders, all random draws", "why_tests_cant": "the space of malformed inputs interleaved with exceptions is unbounded, and undefined behaviour need not show in a test", "anchors": ["src/models/wisard/wisard.cc:train", "src/models/wisard/wisard.cc:leaveMoreOut", "src/models/wisard/discriminator.cc:setRAMShuffle", "src/models/wisard/ram.cc:train", "src/common/bleaching.cc"]}
{"id": "C174", "title": "No list of images makes a ClusWisard run into undefined behaviour", "statement": "Take a new ClusWisard, any unsupervised calls and then any supervised train calls, with non-empty batches of arbitrary lists (any integers, any lengths, different lengths in one batch) and arbitrary labels (too few, too many, new, known), by a caller that catches exceptions and goes on. Every call returns or throws one of the library's exceptions, and so does every later classify and classifyUnsupervised: the same holds of supervised calls mixed with semi-supervised ones, for plain labels and any dictionaries except those with as many entries as images that do not all name an image: no null or out-of-range access, no signed overflow, no endless loop.", "quantifier": "all options, call sequences, images, labels, random draws; both evaluation orders (with the map entry first, for images that are wide enough)", "why_tests_cant": "the space of malformed inputs interleaved with exceptions is unbounded, and undefined behaviour need not show in a test", "anchors": ["src/models/cluswisard/cluswisard.cc:train", "src/models/cluswisard/cluster.cc:train", "src/models/cluswisard/cluster.cc:makeDiscriminator", "src/models/wisard/ram.cc:train", "src/common/bleaching.cc"]}
{"id": "C175", "title": "Mental images are defined for every model images can bring about", "statement": "After any program as in C173 (Wisard) or C174 (ClusWisard), calls that failed included, asking for the mental images - of all labels or of one - performs no undefined behaviour, for every enumeration order of the RAM contents, as long as the number of images handed over times the number of RAM inputs wired to one pixel fits in an int; without a mapping and without indexes the images handed over (times addressSize if the wiring is completed) need only fit in an int.", "quantifier": "every program of calls with list images, any labels, options, random draws and enumeration orders", "why_tests_cant": "the accumulated sums depend on the whole history of successes and failures and on the wiring; overflow needs billions of examples or loaded models", "anchors": ["src/models/wisard/discriminator.cc:getMentalImage", "src/models/wisard/ram.cc:getMentalImage", "src/models/wisard/wisard.cc:getMentalImages", "src/models/cluswisard/cluswisard.cc:getMentalImages"]}
{"id": "C176", "title": "A model that survived failing calls can be saved, loaded and used", "statement": "Whatever calls on a WiSARD failed with exceptions before, saving the model in memory and loading the text gives a model that answers every classification alike and goes on answering or throwing for every later call.", "quantifier": "Every WiSARD configuration, every program of training and forgetting calls with any list images (also wrong values, sizes and counts), every later program on the loaded copy, every hash-map order and evaluation order.", "why_tests_cant": "A test saves models that only saw accepted images; the partial state a rejected image leaves in each RAM has too many shapes to list, and one of them cannot be loaded.", "anchors": ["src/models/wisard/wisard.cc:train", "src/models/wisard/wisard.cc:json", "src/models/wisard/discriminator.cc:train", "src/models/wisard/ram.cc"]}
{"id": "C177", "title": "Saving and loading between sessions changes nothing", "statement": "Work split into any number of sessions, each ending with an in-memory save and each beginning by loading the previous text, gives the same outcome for every call (answers and exceptions alike) and the same final model as one uninterrupted program, even when calls fail inside the sessions.", "quantifier": "Every WiSARD configuration without a mapping, every list of sessions of training and forgetting calls with any list images, every hash-map order and evaluation order.", "why_tests_cant": "A test interrupts one program at one place; the number of sessions, where they are cut and which calls fail in them are unbounded.", "anchors": ["src/models/wisard/wisard.cc:train", "src/models/wisard/wisard.cc:json", "src/models/wisard/wisard.cc:Wisard", "src/models/wisard/discriminator.cc:json"]}
{"id": "C178", "title": "Saving and loading a ClusWisard between sessions changes nothing", "statement": "Supervised and semi-supervised work on a ClusWisard, split into any number of sessions each ending with an in-memory save and each beginning by loading the previous text, ends with exactly the model of the uninterrupted program: same clusters, same discriminators, same counters, same options.", "quantifier": "Every ClusWisard configuration with fitting images, every list of sessions of supervised and semi-supervised calls, every choice of random wirings, every hash-map order and evaluation order.", "why_tests_cant": "A test interrupts one program at one place; the number of sessions, the cuts and the clusters that exist at each are unbounded.", "anchors": ["src/models/cluswisard/cluswisard.cc:train", "src/models/cluswisard/cluswisard.cc:json", "src/models/cluswisard/cluster.cc"]}
{"id": "C179", "title": "A Discriminator lives on through rejected calls and is saved at any time", "statement": "A program may go on using a Discriminator after train or untrain calls that were rejected (wrong size, pixel outside the base), even half-way through. json() then still succeeds at any time; the text is read back as exactly the same discriminator as soon as one training call was answered, and generally iff every RAM has learned something (otherwise the constructor throws std::out_of_range). Hence sessions that end with json() and begin with Discriminator(text) behave exactly as one uninterrupted program, with the same calls answered and the same calls rejected, if a training call was answered before the first save.", "quantifier": "all constructed discriminators wired inside the entry, all sequences of train and untrain calls with any images, all ways of cutting them into sessions, all enumeration orders of the hash maps", "why_tests_cant": "the number of sessions and calls is unbounded; rejected calls leave partial updates that a test would have to enumerate", "anchors": ["src/models/wisard/discriminator.cc:train", "src/models/wisard/discriminator.cc:untrain", "src/models/wisard/discriminator.cc:json", "src/models/wisard/discriminator.cc:setRAMsData"]}
{"id": "C180", "title": "No call on a Discriminator is undefined", "statement": "Every Discriminator constructor with safely wired arguments returns or throws an exception; on the object it returns, every train and untrain call with images whose pixels can be read (any list of int, packed images) returns or throws, whatever was rejected or untrained before; afterwards classify returns or throws, with votes that never exceed the number of calls, and so does getMentalImage while contents times wires fit an int. Nothing overflows, divides by zero or reads out of bounds.", "quantifier": "all constructor arguments and random draws, all sequences of train and untrain calls with readable images of any size and any values, all images classified", "why_tests_cant": "undefined behaviour after an unbounded history with rejected calls in it cannot be observed by tests reliably", "anchors": ["src/models/wisard/discriminator.cc:train", "src/models/wisard/discriminator.cc:untrain", "src/models/wisard/discriminator.cc:classify", "src/models/wisard/discriminator.cc:getMentalImage", "src/models/wisard/ram.cc:train"]}
{"id": "C181", "title": "Discriminator sessions kept in files", "statement": "Sessions of a Discriminator that end with json(huge=True, path) and begin with Discriminator(text) in the next behave exactly as one uninterrupted program - the same calls answered, the same calls rejected, the same discriminator in the end - however many calls were rejected, even half-way, if the random file names are new and a training call was answered before the first save. Files that existed before are untouched.", "quantifier": "all constructed discriminators wired inside the entry, all sequences of train and untrain calls with any images, all ways of cutting them into sessions, all file systems and directories, all random names that are new", "why_tests_cant": "histories, sessions and file systems are unbounded", "anchors": ["src/models/wisard/discriminator.cc:json", "src/models/wisard/discriminator.cc:getRAMsData", "src/models/wisard/discriminator.cc:setRAMsData"]}
{"id": "C182", "title": "Wisard sessions kept in files", "statement": "Sessions of a Wisard that end with json(huge=True, path) and begin with Wisard(text) in the next behave exactly as one uninterrupted program - the same calls answered, the same calls rejected, the same model in the end - however many calls were rejected, even half-way, if the random file names are new and every label present at a save was named by an answered training call. Files that existed before are untouched, and the only files created are those named by path, label and random part.", "quantifier": "all constructed Wisards with an empty mapping, all sequences of train and leave-one-out calls with any images and labels, all ways of cutting them into sessions, all file systems and directories, all random names that are new", "why_tests_cant": "histories, sessions, label sets and file systems are unbounded", "anchors": ["src/models/wisard/wisard.cc:json", "src/models/wisard/wisard.cc:train", "src/models/wisard/discriminator.cc:getRAMsData"]}
