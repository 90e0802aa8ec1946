{"id": "C01", "title": "TSON text round trip", "statement": "For every document whose object keys are distinct, whose strings survive %q quoting with the escapes Unmarshal knows, whose numbers print in plain decimal form, whose timestamps are >= -1 and which holds no null, Unmarshal(Marshal(d)) succeeds and yields d, in every map iteration order Marshal may pick.", "quantifier": "all such documents of any depth and width, all iteration orders of every object in it", "why_tests_cant": "Marshal walks Go maps in random order and documents are unbounded trees; a test sees a handful of trees and orders.", "anchors": ["internal/tson/serialization.go: Marshal, marshalTson, marshalObject, marshalArray, Unmarshal, parseVal, parseObject, parseArray, wrapIfPrimitive"]}
{"id": "C02", "title": "Indented text round trip", "statement": "Unmarshal(MarshalIndent(d, prefix, indent)) yields d for every document as in C01 and every prefix/indent made of white space.", "quantifier": "all such documents, all white-space prefixes and indents, all iteration orders", "why_tests_cant": "prefix, indent, nesting depth and order are all unbounded.", "anchors": ["internal/tson/serialization.go: MarshalIndent, marshalIndentValue, formatPrimitive, Unmarshal"]}
{"id": "C03", "title": "When Unmarshal crashes the program", "statement": "For every byte string, Unmarshal terminates. It panics exactly when, after blanks and a well-formed beginning, null stands where the value of an object member or an array element is expected, at any depth and whatever follows; on every other input it returns a document or an error. (That it never panics is false.)", "quantifier": "all byte strings", "why_tests_cant": "the input space is infinite; one crashing input is enough to take a server down.", "anchors": ["internal/tson/serialization.go: Unmarshal, parseVal, parseObject, parseArray, wrapIfPrimitive"]}
{"id": "C04", "title": "Unmarshal yields well-formed documents", "statement": "Whenever Unmarshal succeeds, every object in the result has distinct keys, no member or element is null, and every timestamp lies between -1 and 2^63-1.", "quantifier": "all byte strings accepted by Unmarshal", "why_tests_cant": "needs induction over the parser for arbitrary input.", "anchors": ["internal/tson/serialization.go: parseObject, parseArray, parseTimestamp, wrapIfPrimitive"]}
{"id": "C05", "title": "Unmarshal reads a complete document, and what follows it", "statement": "A user expects text after a complete document to be rejected. In fact Unmarshal accepts every document text followed by arbitrary bytes and silently drops them.", "quantifier": "all documents as in C01 and all trailing byte strings", "why_tests_cant": "the claim is about every suffix.", "anchors": ["internal/tson/serialization.go: Unmarshal"]}
{"id": "C06", "title": "Leaves without a timestamp get the default timestamp", "statement": "A member or element written without <...> should read back with DefaultTimestamp (-1), and a timestamp written after a member's value should be kept. In fact such members read back with 0 and the value-side timestamp is discarded.", "quantifier": "all keys, all primitive values, all timestamps", "why_tests_cant": "a test would check a single literal; the statement is about all of them.", "anchors": ["internal/tson/serialization.go: parseObject, parseArray, wrapIfPrimitive", "internal/tson/tson.go: DefaultTimestamp"]}
{"id": "C07", "title": "Text identifies the document", "statement": "If Marshal of two documents (in any iteration orders) gives the same text, the documents are the same up to member order: no information is lost by serialization.", "quantifier": "all pairs of documents as in C01", "why_tests_cant": "injectivity is a statement about all pairs.", "anchors": ["internal/tson/serialization.go: Marshal, marshalObject"]}
{"id": "C08", "title": "GetValue returns the addressed node", "statement": "For every document and every pointer /k1/../kn whose keys contain neither / nor ~, GetValue returns the node reached by those member names and array indices, and an error when there is none. A key holding / encoded as ~1 cannot be addressed.", "quantifier": "all documents, all pointers", "why_tests_cant": "unbounded depth; keys are arbitrary strings.", "anchors": ["internal/tson/tson.go: GetValue, getValue"]}
{"id": "C09", "title": "GetLatestTimestamp is the maximum", "statement": "GetLatestTimestamp(d) is the greatest timestamp of any leaf of a null-free document that is not a bare leaf, never below 0, and does not depend on map iteration order.", "quantifier": "all null-free documents, all iteration orders", "why_tests_cant": "map order is random and documents are unbounded.", "anchors": ["internal/tson/tson.go: GetLatestTimestamp"]}
{"id": "C10", "title": "Equal means same content", "statement": "Equal(a,b) is true exactly when a and b have the same structure, values and timestamps up to member order, for documents with timestamps of magnitude at most 2^53 and finite numbers; beyond 2^53 distinct timestamps can compare equal.", "quantifier": "all pairs of documents", "why_tests_cant": "needs an argument about float64 rounding for all 2^64 timestamps and about unbounded trees.", "anchors": ["internal/tson/tson.go: Equal"]}
{"id": "C11", "title": "EqualWithoutTimestamp ignores timestamps", "statement": "For documents that are objects or arrays, EqualWithoutTimestamp(a,b) is true exactly when a and b agree after dropping every timestamp. (False for bare leaves, whose timestamp is compared.)", "quantifier": "all pairs of documents", "why_tests_cant": "all pairs of unbounded trees.", "anchors": ["internal/tson/tson.go: EqualWithoutTimestamp, ToJson, removeTimestamp"]}
{"id": "C12", "title": "Compatible-TSON round trip", "statement": "FromCompatibleTson(ToCompatibleTson(d)) yields d for every null-free document with timestamps of magnitude at most 2^53, including documents having members called value and timestamp.", "quantifier": "all such documents", "why_tests_cant": "the leaf/object encodings could collide on some tree no test tried.", "anchors": ["internal/tson/tson.go: ToCompatibleTsonBytes, FromCompatibleTsonBytes, convert, checkLeaf"]}
{"id": "C13", "title": "JSON import/export round trip", "statement": "For every null-free JSON object or array j, ToJson(FromJson(j)) yields j, and every leaf of FromJson(j) has the default timestamp.", "quantifier": "all null-free JSON containers", "why_tests_cant": "unbounded trees with arbitrary keys.", "anchors": ["internal/tson/tson.go: FromJson, addTimestamp, ToJson, removeTimestamp"]}
{"id": "C14", "title": "FromJson does not crash and leaves its argument alone", "statement": "FromJson should return an error, not panic, on unsupported JSON, and should not modify the caller's data. In fact any null anywhere panics, as does a scalar on its own, and the caller's map is rewritten; an error is returned only for a number without JSON text.", "quantifier": "all JSON values", "why_tests_cant": "universal over JSON values.", "anchors": ["internal/tson/tson.go: FromJson, addTimestamp, FromCompatibleTsonBytes"]}
{"id": "C15", "title": "add/replace sets exactly one leaf", "statement": "Applying add or replace with a scalar value at a relative path k1/../kn (or k1.k2...kn) whose intermediate members are objects or missing makes that path hold the new leaf and leaves every other path not through it untouched; missing intermediates are created.", "quantifier": "all documents without internal sharing, all such paths, all scalar values and timestamps", "why_tests_cant": "frame properties quantify over every other path in an unbounded document.", "anchors": ["internal/tsonpatch/tsonpatch.go: ApplyOperation, applyTraverse"]}
{"id": "C16", "title": "remove deletes exactly one member", "statement": "Applying remove at a relative object path deletes that member and nothing else; removing a missing member is a no-op.", "quantifier": "all documents without internal sharing, all paths", "why_tests_cant": "frame property over unbounded documents.", "anchors": ["internal/tsonpatch/tsonpatch.go: ApplyOperation, applyTraverse"]}
{"id": "C17", "title": "Failed operations leave the document unchanged", "statement": "A user expects an operation that returns an error to have no effect. In fact an error below a member replaces that whole member by null.", "quantifier": "all documents, all failing operations", "why_tests_cant": "needs reasoning about every error path.", "anchors": ["internal/tsonpatch/tsonpatch.go: ApplyOperation, applyTraverse"]}
{"id": "C18", "title": "ApplyPatch is sequential application", "statement": "For object documents ApplyPatch of p++q equals applying p then q, and the returned document is the given one updated in place. The empty patch should be the identity; in fact it returns null.", "quantifier": "all object documents and all patches", "why_tests_cant": "patches are unbounded sequences.", "anchors": ["internal/tsonpatch/tsonpatch.go: ApplyPatch, ApplyOperation"]}
{"id": "C19", "title": "Pointer paths address the document root", "statement": "A user (following RFC 6902, GeneratePatch and GetValue) expects path /a to address member a. In fact every operation with a leading slash on an object document only touches the member with the empty name; all other members keep their content.", "quantifier": "all object documents, all operations whose path starts with /", "why_tests_cant": "universal frame property.", "anchors": ["internal/tsonpatch/tsonpatch.go: ApplyOperation, applyTraverse, makePath", "internal/tson/tson.go: GetValue"]}
{"id": "C20", "title": "Generated patches transform origin into modified", "statement": "ApplyPatch(a, GeneratePatch(a,b)) should equal b up to timestamps. In fact it never does when a and b are objects that differ outside the member with the empty name. With the leading slash removed from every path it holds for documents built from objects, leaves and arrays, when names are non-empty and free of \"/\" and \".\", containers in arrays do not change, and arrays whose length changes keep elements in their order, drop an element only if no equal one follows, and grow at the end. For an array of leaves whose length changes this condition is exact: the patch gives the new array if and only if it holds.", "quantifier": "all pairs of object documents without NaN for which a patch is generated, all heaps holding them unshared", "why_tests_cant": "all pairs of unbounded documents and all iteration orders.", "anchors": ["internal/tsonpatch/tsonpatch.go: GeneratePatch, diff, handleValues, ApplyPatch"]}
{"id": "C21", "title": "Value diff ignores timestamps", "statement": "GeneratePatch(a,b) is empty whenever a and b differ only in timestamps, and an empty result implies that a and b agree up to timestamps.", "quantifier": "all pairs of documents, all iteration orders (a document with NaN does not agree with itself)", "why_tests_cant": "all pairs of unbounded trees.", "anchors": ["internal/tsonpatch/tsonpatch.go: GeneratePatch, handleValues, matchesValue, diff"]}
{"id": "C22", "title": "Timestamp diff is complete", "statement": "GeneratePatchWithTimestamp(a,b) is empty exactly when a and b agree in values and timestamps.", "quantifier": "all pairs of documents, all iteration orders (a document with NaN does not agree with itself)", "why_tests_cant": "all pairs of unbounded trees.", "anchors": ["internal/tsonpatch/tsonpatch.go: GeneratePatchWithTimestamp, handleValuesWithTimestamp, matchTimestamp"]}
{"id": "C23", "title": "Generated operations describe the modified document", "statement": "Every add/replace operation in GeneratePatch(a,b) carries the value and timestamp of the leaf of b that its path addresses, every remove operation names something of a that b lacks, every leaf of b that is new or has a different value is covered by an operation, and so is every missing member.", "quantifier": "all pairs of documents for which a patch is generated", "why_tests_cant": "soundness and completeness over unbounded trees.", "anchors": ["internal/tsonpatch/tsonpatch.go: diff, handleValues, makePath"]}
{"id": "C24", "title": "Array diff is a multiset difference", "statement": "For arrays of different length the remove operations name exactly the elements of the old array that are left over after matching equal elements one to one with the new array, in descending index order, and the add operations the elements left over in the new one.", "quantifier": "all pairs of arrays of different length without NaN that the diff meets at any depth, when a patch is generated", "why_tests_cant": "multiset reasoning for arrays of any length.", "anchors": ["internal/tsonpatch/tsonpatch.go: compareArray, processArray"]}
{"id": "C25", "title": "Versions are consecutive", "statement": "In every log made by NewLogument, after any sequence of calls, the versions are 0..n in order, a patch is recorded for exactly the versions 1..n, every snapshot belongs to a version in 0..n, and version 0 has a snapshot.", "quantifier": "all histories of API calls", "why_tests_cant": "histories are unbounded.", "anchors": ["internal/logument/logument.go: NewLogument, Store, Append, Snapshot, TemporalSnapshot, Track, Compact, History, Set, TestSet"]}
{"id": "C26", "title": "Append commits exactly what was stored", "statement": "Append never fails on a log made by NewLogument; it moves the concatenation of everything stored since the previous commit, in order, to the next version, or changes nothing when nothing was stored.", "quantifier": "all histories of API calls", "why_tests_cant": "order and loss-freedom over unbounded histories.", "anchors": ["internal/logument/logument.go: Store, Append"]}
{"id": "C27", "title": "Committed patches do not change", "statement": "Recorded patches of existing versions are never altered by Store, Append, Snapshot, Set, TestSet, TemporalTrack or Slice; TemporalSnapshot may reorder one version's operations but keeps the same operations. Track, Compact and History drop operations.", "quantifier": "all histories of API calls", "why_tests_cant": "unbounded histories.", "anchors": ["internal/logument/logument.go: Store, Append, Snapshot, TemporalSnapshot, Track, Compact, History"]}
{"id": "C28", "title": "Snapshot replays the log", "statement": "If Snapshot is asked for ascending versions on a log over an object document (and no call in between edits the document), each call returns, at the time it returns, the initial document with the patches of versions 1..k applied in order, provided version k's patch is not empty. In any other state over an object document, whatever was asked, set or edited before, Snapshot(k) starts from the latest recorded snapshot up to k as the document is now, applies the patches of the versions after it up to k, records the result, and panics exactly when k is not a version or one of these patches cannot be applied.", "quantifier": "all documents, logs and ascending query sequences; all reachable states", "why_tests_cant": "replay of unbounded logs with in-place mutation.", "anchors": ["internal/logument/logument.go: Snapshot, findLatest"]}
{"id": "C29", "title": "Snapshots are immutable", "statement": "A user expects a snapshot once taken to keep its content and an older version to be recoverable. In fact all non-null snapshots of a log over an object document are one and the same mutable object, so every version reads the same content.", "quantifier": "all histories of API calls", "why_tests_cant": "aliasing over unbounded histories.", "anchors": ["internal/logument/logument.go: NewLogument, Snapshot, TemporalSnapshot, Set", "internal/tsonpatch/tsonpatch.go: ApplyPatch"]}
{"id": "C30", "title": "Track reports the patches of a version range and nothing else changes", "statement": "Track(vi,vj) returns exactly the recorded patches of versions in [vi,vj]. A user expects only changed values to be reported and the log to be left alone; in fact the raw patches are returned and the log is compacted as a side effect.", "quantifier": "all logs and ranges", "why_tests_cant": "unbounded logs.", "anchors": ["internal/logument/logument.go: Track"]}
{"id": "C31", "title": "TemporalTrack reports each value change in a time range", "statement": "TemporalTrack(ti,tj) leaves the log unchanged and returns, per version, exactly the in-range operations whose value differs from the previously reported value of the same path (first occurrences always reported), in log order.", "quantifier": "all logs, all time ranges", "why_tests_cant": "unbounded logs.", "anchors": ["internal/logument/logument.go: TemporalTrack"]}
{"id": "C32", "title": "Compact removes only redundant operations", "statement": "Compact(p) keeps every operation outside the prefix, keeps order, keeps the first operation of each path, and per path removes exactly the operations repeating the last kept value; so the value last written to each path at each version is unchanged, and compacting again changes nothing.", "quantifier": "all logs, all target paths", "why_tests_cant": "unbounded logs.", "anchors": ["internal/logument/logument.go: Compact"]}
{"id": "C33", "title": "Compact preserves replay", "statement": "Replaying a compacted log should give the same document up to timestamps as replaying the original. This fails when a path is removed through an ancestor or spelled in two ways; it holds when all paths in the log are pairwise independent locations and only add/replace operations are used.", "quantifier": "all logs and documents", "why_tests_cant": "unbounded replay.", "anchors": ["internal/logument/logument.go: Compact", "internal/tsonpatch/tsonpatch.go: ApplyOperation"]}
{"id": "C34", "title": "History lists the changes of a path", "statement": "History(p) returns, for every path under the prefix, the initial value followed by exactly the value changes of the path. The order is not chronological in general: it follows the random iteration order over versions. History panics when a path is missing from the initial document.", "quantifier": "all logs, all target paths, all iteration orders", "why_tests_cant": "random iteration order and unbounded logs.", "anchors": ["internal/logument/logument.go: History"]}
{"id": "C35", "title": "Slice keeps a version range", "statement": "Slice(vi,vj) returns a log having exactly the patches of versions in [vi,vj] and the snapshots of versions in [vi,vj], adding a snapshot at vi when there is none in range. A user expects to be able to ask the slice for every version in range; this fails when vi = 0 = vj or when the only snapshots in range are later than vi.", "quantifier": "all logs and ranges", "why_tests_cant": "unbounded logs.", "anchors": ["internal/logument/logument.go: Slice"]}
{"id": "C36", "title": "TemporalSlice keeps a time range", "statement": "TemporalSlice(ti,tj) returns a log whose patches are exactly the operations with timestamps in [ti,tj], per version and in order. A user expects the slice to be usable as a log; in fact its version list repeats a version per operation, so most calls on it panic.", "quantifier": "all logs and time ranges", "why_tests_cant": "unbounded logs.", "anchors": ["internal/logument/logument.go: TemporalSlice"]}
{"id": "C37", "title": "TemporalSnapshot reconstructs the state at a time", "statement": "TemporalSnapshot(t) should return the document with all committed operations of timestamp <= t applied. In fact it only looks at one version after the chosen snapshot, changes the stored snapshot, and returns null when no operation qualifies. It panics only when a snapshot it has to look at has no timestamp (it is null), or when the chosen operations cannot be applied.", "quantifier": "all logs and times", "why_tests_cant": "unbounded logs, unstable sort and random map order.", "anchors": ["internal/logument/logument.go: TemporalSnapshot"]}
{"id": "C38", "title": "Set records and applies the operation", "statement": "Set with add/replace that returns normally appends exactly that operation to the pending operations, and the current document shows the written value at the named member and is unchanged elsewhere; when it panics nothing is recorded, and if the operation was rejected the current document becomes null and every later Set panics. Every other operation kind is ignored without any effect.", "quantifier": "all logs, all operations", "why_tests_cant": "all operations and states.", "anchors": ["internal/logument/logument.go: Set"]}
{"id": "C39", "title": "TestSet records only changes", "statement": "TestSet with replace should record the operation exactly when the current value differs. It compares with the snapshot stored for the last version; when there is none it always records, as an add.", "quantifier": "all logs, all operations", "why_tests_cant": "all operations and states.", "anchors": ["internal/logument/logument.go: TestSet, leafCompareValue", "internal/tson/tson.go: GetValue"]}
{"id": "C40", "title": "Stored operations are isolated from the caller", "statement": "A user expects the log not to change when the slice passed to Store is reused. In fact the log keeps the caller's slice, later Store calls write into the caller's spare capacity, and storing one slice twice can change a committed version. Only a caller that writes no array of the log, and passes a slice of one into an empty pool only without spare capacity, sees the log it stored.", "quantifier": "all histories of Store/Append and caller writes, all capacities", "why_tests_cant": "depends on hidden slice capacities.", "anchors": ["internal/logument/logument.go: Store, Append"]}
{"id": "C41", "title": "Unmarshal accepts exactly the TSON grammar", "statement": "Unmarshal returns document d for input s exactly when s is blanks, a value text denoting d by the TSON grammar, and a rest that cannot extend that text; the grammar assigns at most one document to an input.", "quantifier": "all byte strings, all documents", "why_tests_cant": "both directions quantify over the infinite set of inputs.", "anchors": ["internal/tson/serialization.go: Unmarshal, parseVal, parseObject, parseArray, parseString, parseNumber, parseTimestamp"]}
{"id": "C42", "title": "Edits stay inside the edited document", "statement": "Applying an operation to one document leaves every other document that shares no object or array with it unchanged, whatever the outcome, and the two still share nothing.", "quantifier": "all heaps, all collections of unshared documents, all operations", "why_tests_cant": "separation over unbounded heaps and every code path including errors and panics.", "anchors": ["internal/tsonpatch/tsonpatch.go: ApplyOperation, applyTraverse"]}
{"id": "C43", "title": "Array element operations", "statement": "add/replace with a scalar at index i of an array member sets element i, filling a gap with nulls, and ignores further path pieces; remove closes the gap; everything outside the array is untouched. Writing an object or array value over a leaf element succeeds and turns the whole array into that old leaf.", "quantifier": "all documents without internal sharing, all arrays reached through members, all indices", "why_tests_cant": "frame property over unbounded arrays and documents.", "anchors": ["internal/tsonpatch/tsonpatch.go: applyTraverse"]}
{"id": "C44", "title": "Timestamp diff describes the modified document", "statement": "Every add/replace operation in GeneratePatchWithTimestamp(a,b) carries the leaf of b that its path addresses, and every leaf of b that differs in value or timestamp is covered by an operation, except leaves inside a container element of an array whose length changed, whose changes are dropped. For such arrays the removals and the updates by index contradict each other. With the leading slash removed from every path, applying the operations to a yields b, timestamps included, for documents built from objects, leaves and arrays, when names are non-empty and free of \"/\" and \".\", containers in arrays do not change, and arrays whose length changes begin alike and from there on differ at every index, with leaves only in the new one.", "quantifier": "all pairs of documents for which a patch is generated", "why_tests_cant": "soundness and completeness over unbounded trees.", "anchors": ["internal/tsonpatch/tsonpatch.go: GeneratePatchWithTimestamp, handleValuesWithTimestamp, compareArrayWithTimestamp"]}
{"id": "C45", "title": "FromCompatibleTson reads exactly the documented shapes", "statement": "FromCompatibleTson turns a JSON object into a leaf exactly when its members are \"value\" and a numeric \"timestamp\" and no others (the fraction of the timestamp is cut off; a null or container value gives nil), and into an object or array member by member otherwise. It never returns an error on decoded JSON and panics exactly when some scalar or null is not part of such a leaf.", "quantifier": "all JSON values", "why_tests_cant": "the boundary between leaf and object depends on the exact set of members of every object in an unbounded tree.", "anchors": ["internal/tson/tson.go: FromCompatibleTsonBytes, convert, checkLeaf"]}
{"id": "C46", "title": "ToArray returns all leaf values in order", "statement": "ToArray returns the values of the elements in order exactly when every element is a leaf, and otherwise an error; it never panics.", "quantifier": "all arrays", "why_tests_cant": "arrays of any length and content.", "anchors": ["internal/tson/tson.go: ToArray"]}
{"id": "C47", "title": "ToCompatibleTsonBytes is canonical", "statement": "Two documents get the same JSON text from ToCompatibleTsonBytes exactly when they are the same up to member order, whatever the iteration order of the maps; it fails only on NaN and infinities; decoding the text gives the data of ToCompatibleTson. (Decoding loses the difference of timestamps beyond 2^53, which the text still has.)", "quantifier": "all pairs of documents", "why_tests_cant": "map iteration order is random and the trees are unbounded.", "anchors": ["internal/tson/tson.go: ToCompatibleTsonBytes, ToCompatibleTson"]}
{"id": "C48", "title": "ToCompatibleTsonBytesSorted", "statement": "ToCompatibleTsonBytesSorted succeeds exactly on null-free documents with finite numbers; its text stands for the document, has ascending keys in every object, and is the same for two documents exactly when they are the same up to member order. (Its bytes differ from those of ToCompatibleTsonBytes, which writes \"value\" before \"timestamp\" and accepts nulls.)", "quantifier": "all pairs of documents", "why_tests_cant": "all trees and all map iteration orders.", "anchors": ["internal/tson/tson.go: ToCompatibleTsonBytesSorted, toSortedInterface"]}
{"id": "C49", "title": "parseValue", "statement": "The private parser parseValue never panics, accepts exactly null, leaves with scalar values, and containers of such, and agrees with FromCompatibleTson on every result without nil inside.", "quantifier": "all JSON values", "why_tests_cant": "all trees.", "anchors": ["internal/tson/tson.go: parseValue, parseObject, parseArray, parseLeaf"]}
{"id": "C50", "title": "Period texts of the temporal JSON document", "statement": "The period AddItem writes for a start and an end that are not negative reads as these two numbers, and isTimeInRange answers exactly whether a time lies between them. If either is negative, the period contains the time 0 and no other.", "quantifier": "all pairs of int64 numbers, all times", "why_tests_cant": "all numbers and their decimal texts.", "anchors": ["exp/tjson.go: AddItem, parseTimeRange, isTimeInRange"]}
{"id": "C51", "title": "TemporalTrack of a document built from patches", "statement": "For a path of two names or more, with no negative times and, at time 0, at most one patch on it or only patches setting the same value, TemporalTrack on the result of FromTSONPatches returns periods meeting the window, in order of their start; each starts with a patch giving its data, the path has that value at every moment of the period, and together they cover every moment of the window, up to the construction time, at which the path has a value. It fails exactly when no patch gives a value to the path or below it. Paths of one name never have entries; values set later than the construction time and names containing dots are not handled.", "quantifier": "all patch lists, paths, windows, sort results and map orders", "why_tests_cant": "all histories, and all results of the unstable sorts and the random map order.", "anchors": ["exp/tjson.go: FromTSONPatches, AddItem, TemporalTrack"]}
{"id": "C52", "title": "TemporalSnapshot of a document built from patches", "statement": "For a path of two names or more whose ancestors were only given objects, TemporalSnapshot on the result of FromTSONPatches shows the value the patches up to that time give it, if there is one. It also shows values that are removed or not yet set, an older value if two patches have time 0, and nothing below a scalar. Whatever it shows that is not an object was given by some patch, at that path or as part of an object given above it, and it shows null only as part of such an object.", "quantifier": "all patch lists, paths and times", "why_tests_cant": "all histories and all interleavings of paths.", "anchors": ["exp/tjson.go: FromTSONPatches, TemporalSnapshot, getSnapshotForItem"]}
{"id": "C53", "title": "FindEvents of a document built from patches", "statement": "FindEvents returns ascending times; each is the time of a patch on the path whose value satisfies the predicate, and for every moment of the window (up to the construction time) at which the value satisfies it, one of them is a time since which the value has satisfied it without interruption.", "quantifier": "all patch lists, paths, windows and predicates that respect equality", "why_tests_cant": "all histories and predicates.", "anchors": ["exp/tjson.go: FindEvents, TemporalTrack, FromTSONPatches"]}
{"id": "C54", "title": "Plain structure of the initial file", "statement": "transformJsonStructure on the compatible JSON of a TSON document yields the document with every timestamp dropped, provided no object has members named both \"timestamp\" and \"value\"; JSON without such objects is unchanged. An object with such members is taken for a leaf and its other members are lost. In general the result is the input with every outermost object that has both members replaced by its value as it stands (the empty string for null), and nothing else changed.", "quantifier": "all documents", "why_tests_cant": "documents have unbounded depth and arbitrary member names.", "anchors": ["exp/utils_temporal.go: transformJsonStructure"]}
{"id": "C55", "title": "Exactly the initial patches", "statement": "For a file whose member names are not empty, CreateInitialPatchesFromJSON returns exactly the add patches at time 0, at the dotted path of the node, of every scalar and of the scalar members of every object that has some, and no others.", "quantifier": "all files and map orders", "why_tests_cant": "an equivalence over all files.", "anchors": ["exp/utils_temporal.go: generateInitialPatches, isPrimitive, CreateInitialPatchesFromJSON"]}
{"id": "C56", "title": "Initial values and updates in the temporal document", "statement": "In the temporal JSON document built from the initial patches of a file and later updates of its scalars, TemporalSnapshot shows at every time, for every scalar below the top level, its initial value until its first update and the value of its last update afterwards. An update at time 0 is not seen at time 0 and may be lost for good, depending on how the sort orders equal times; scalars at the top level are lost, and arrays come back as objects.", "quantifier": "all files, updates, times, sort results and map orders", "why_tests_cant": "all histories, and all results of the unstable sort and the random map order.", "anchors": ["exp/utils_temporal.go: CreateInitialPatchesFromJSON", "exp/tjson.go: FromTSONPatches, TemporalSnapshot"]}
{"id": "C57", "title": "Unmarshal of patches", "statement": "tsonpatch.Unmarshal accepts exactly the byte strings that are JSON (RFC 8259, including surrogate escapes, duplicate names, invalid UTF-8 replaced) for null or an array of nulls and objects whose op, path and timestamp members, matched without regard to case, are strings and an integer; it returns the operations they describe, the last member of a name counting. Every other byte string is an error, never a panic. No byte string is the JSON of two different values.", "quantifier": "all byte strings and number readers", "why_tests_cant": "an equivalence with a grammar over all byte strings.", "anchors": ["internal/tsonpatch/tsonpatch.go: Unmarshal, Operation"]}
{"id": "C58", "title": "Patches survive being written as JSON", "statement": "The text that json.Marshal writes for a patch of finite numbers and UTF-8 strings is read by Unmarshal as a patch with the same operations, paths and timestamps; values are the same except that integers become float64, TSON documents become the data of ToCompatibleTson and map members may change order. The text of Patch.String is too, provided names and paths hold no quotes, backslashes and control characters; the same holds for single operations with Operation.String and Operation.Marshal. Patches from GeneratePatch and GeneratePatchWithTimestamp come back exactly.", "quantifier": "all patches, documents, number formats", "why_tests_cant": "all patches with values of unbounded size, all strings.", "anchors": ["internal/tsonpatch/tsonpatch.go: Patch.String, Operation.String, Operation.Marshal, Unmarshal, GeneratePatch"]}
{"id": "C59", "title": "Where writing a patch fails", "statement": "json.Marshal of a patch and Operation.Marshal fail exactly if a value holds NaN or an infinity; Patch.String then returns a text that is not JSON. Patch.String does not escape: for any two operations there is a single operation whose text reads as these two, a backslash in a path changes the path and a control character makes the text unreadable. json.Marshal replaces bytes that are not UTF-8.", "quantifier": "all patches", "why_tests_cant": "the failing values and paths are arbitrary.", "anchors": ["internal/tsonpatch/tsonpatch.go: Patch.String, Operation.String, Operation.Marshal"]}
{"id": "C60", "title": "Store of a text", "statement": "Logument.Store of a string or byte slice has the effect of storing the patch that the text describes as JSON; for every other text it panics and leaves the log as it was. Storing the JSON of a generated patch is storing the patch.", "quantifier": "all logs and byte strings", "why_tests_cant": "all texts and all log states.", "anchors": ["internal/logument/logument.go: Store", "internal/tsonpatch/tsonpatch.go: Unmarshal"]}
{"id": "C61", "title": "Bytes of compatible TSON", "statement": "For documents with UTF-8 strings and finite numbers, ToCompatibleTsonBytes returns the same bytes exactly for documents that are the same up to member order, and FromCompatibleTsonBytes reads them as the document again, if it has no nulls and its timestamps are exact as float64. FromCompatibleTsonBytes accepts, refuses and panics on exactly the JSON texts of readable data, texts that are not JSON, and JSON with stray scalars. FromJsonBytes followed by ToJsonBytes gives a text that says the same.", "quantifier": "all documents and byte strings", "why_tests_cant": "all documents, and all byte strings.", "anchors": ["internal/tson/tson.go: ToCompatibleTsonBytes, FromCompatibleTsonBytes, FromJsonBytes, ToJsonBytes"]}
{"id": "C62", "title": "NewVssJson drops metadata only", "statement": "NewVssJson keeps every scalar, array and map of the file at its path, except what is below a member named description, uuid, type, comment, deprecated or deprecation of a map that holds anything besides maps; doing it again changes nothing. If the file holds no JSON object it panics. A branch with such a name is lost if a sibling is not a map and kept otherwise.", "quantifier": "all files, all orders of map iteration", "why_tests_cant": "all schemas of unbounded depth, and deletion during iteration depends on the random map order.", "anchors": ["internal/vssgen/vss.go: NewVssJson, removeKeys"]}
{"id": "C63", "title": "LeafNodes lists the leaves", "statement": "LeafNodes lists exactly the scalars, arrays and maps with a timestamp that are not inside a map with a timestamp, each with the names above it joined by dots, where \"children\" is left out except at the front. If names are non-empty, without dots and not \"children\", no path is listed twice; with \"children\" different data can share a path.", "quantifier": "all data with non-empty names", "why_tests_cant": "unbounded nesting and all names.", "anchors": ["internal/vssgen/vss.go: LeafNodes, leaf"]}
{"id": "C64", "title": "Generate gives values in range at the nodes of the schema", "statement": "For a schema whose attributes belong to nodes, none below another, and have distinct paths, Generate does not fail. Every leaf of the result is at a node whose random number was at most the size, with one timestamp and a value within the range of the datatype or among the allowed values; every such node of known datatype has its leaf. This holds for every order of map iteration and all random numbers. If all datatypes are known the result is a data set in the sense of C65. The data sets that can come up are exactly those in which each leaf is possible for its node: any combination of values that fit, where numbers not taken from a list are a hundred times what Float64 can return, and any choice of nodes that the size admits. A node below another one is misplaced, an attribute at the top makes Generate panic, and an unknown datatype gives an empty map.", "quantifier": "all schemas, sizes, random numbers, iteration orders", "why_tests_cant": "results are random and depend on the map order; tests see few of them.", "anchors": ["internal/vssgen/vss.go: Generate, genRandomString"]}
{"id": "C65", "title": "GenerateNext keeps the shape of the data", "statement": "GenerateNext on a data set gives a data set with the same paths. A leaf whose random number is below the change rate gets a new value of the same type in range and the new timestamp, one below the sum of the rates only the new timestamp, others are kept; elements of arrays always keep their values and get the new timestamp. Any combination of such leaves can come up, numbers being a hundred times what Float64 can return. So after Generate and any number of rounds the paths and the types of values are those of the first data set and the next round does not fail. Before Generate it panics. A changed leaf without a plain value and a branch without leaves are lost.", "quantifier": "all data sets, rates, random numbers and numbers of rounds", "why_tests_cant": "unbounded sequences of random rounds.", "anchors": ["internal/vssgen/vss.go: GenerateNext"]}
{"id": "C66", "title": "Patches between documents of the same frame are exact", "statement": "For two documents with the same object names, array lengths, nulls and types of values, GeneratePatch succeeds and its operations are exactly one replace per leaf whose value differs, at the pointer of the leaf, carrying the new value and the new timestamp. GeneratePatchWithTimestamp does the same for leaves whose value or timestamp differs. When no name is empty, no pointer occurs twice.", "quantifier": "all pairs of documents of the same frame", "why_tests_cant": "unboundedly nested documents and arrays with repeated values; a missing or extra operation shows only for particular combinations.", "anchors": ["internal/tsonpatch/tsonpatch.go: GeneratePatch", "internal/tsonpatch/tsonpatch.go: GeneratePatchWithTimestamp"]}
{"id": "C67", "title": "GenerateNext returns exactly the changes of a round as a patch", "statement": "For data that can be written as JSON (names and texts in UTF-8, finite numbers that are read back, no empty branches), which Generate yields for typed schemas, GenerateNext succeeds. Every cell (a leaf or an element of an array leaf) of the new data is the old one or has the time of the round. The patch returned, as decoded JSON, is the set of replace operations for the cells whose value or timestamp, rounded to float64, differs from the old one, with pointer, new value and new timestamp, no pointer twice. If no old timestamp is rounded to the same number as the time of the round, these are exactly the cells written in the round. The result is again such data, so any number of rounds succeed. If the time of the round is rounded to an old timestamp (less than 256 ns apart), written cells are missing from the patch.", "quantifier": "all writable data sets and schemas, rates, random numbers, times, map orders and numbers of rounds", "why_tests_cant": "random rounds over unbounded data; the clock never shows the case of rounded timestamps when stepping through.", "anchors": ["internal/vssgen/vss.go: Generate", "internal/vssgen/vss.go: GenerateNext", "internal/tson/tson.go: FromCompatibleTsonBytes", "internal/tsonpatch/tsonpatch.go: GeneratePatchWithTimestamp"]}
{"id": "C68", "title": "When a patch can be generated", "statement": "GeneratePatch and GeneratePatchWithTimestamp return a patch exactly if the documents have no obstacle between them. An error comes only from: a member that is new or changes its kind and becomes an object, an array or null; an array replaced at the root or inside an array by an object or null; null replaced there by a container. A panic comes only from: a leaf or an object replaced at the root or inside an array by something of another kind; a null member that is removed; an array whose length changes while (values) a container or null element has no equal partner of its own in the old array or (timestamps) an element past the old end is no leaf. With obstacles of both kinds the outcome depends on the map order.", "quantifier": "all pairs of well-formed documents", "why_tests_cant": "the failing combinations are rare and nested arbitrarily deep; the outcome can depend on random map order.", "anchors": ["internal/tsonpatch/tsonpatch.go: GeneratePatch", "internal/tsonpatch/tsonpatch.go: handleValues", "internal/tsonpatch/tsonpatch.go: compareArray", "internal/tsonpatch/tsonpatch.go: compareArrayWithTimestamp"]}
{"id": "C69", "title": "BuildFromLeafNodes keeps every leaf at its path", "statement": "For a schema whose names are non-empty and without dots, none of the form [..], and in which no leaf lies at or below the path (without \"children\") of another leaf, BuildFromLeafNodes succeeds; the leaves of the result are exactly the leaves of the schema, at their paths without \"children\", and apart from the root no map in it is empty. If names in brackets do occur, the numbers among them are not negative, no path ends with one that is not a number, no name is \"array\", and no place lies at or below another, then every leaf is found at its place, where [n] stands for element n of a member \"array\" and other names in brackets are left out; all else found is a container around a leaf, or a null that fills an array before the element of a leaf. Otherwise leaves can move or vanish: a name [1] becomes an index of a new member \"array\", a name [x] and empty branches are dropped, of two leaves with one path one survives, and [-1] is a panic.", "quantifier": "all schemas and map orders", "why_tests_cant": "unbounded schemas; the lost leaves do not raise an error", "anchors": ["internal/vssgen/extension.go: BuildFromLeafNodes", "internal/vssgen/extension.go: buildNestedStructure", "internal/vssgen/vss.go: LeafNodes"]}
{"id": "C70", "title": "Files of data sets are read back as TSON", "statement": "For a data set whose leaves are plain values with timestamps or arrays of such, with names and texts that are printable or have simple escapes and numbers printed without exponent, the file written by Save is read by tson.Unmarshal as the document that has exactly its cells as leaves, with values and exact timestamps, at their paths, and its maps and arrays as objects and arrays. Generate and any number of rounds of GenerateNext yield such data sets for such schemas and random numbers. Save writes an empty file exactly when a timestamp belongs to no plain value or there is an integer without timestamp, which happens for nodes without datatype. A text that is both TSON and JSON has no timestamps, so ToMapStringInterface fails for every data set. Random numbers below 0.0001 make the file unreadable, and numbers of a schema are rounded to integers.", "quantifier": "all data sets, schemas, random numbers, times, map orders and numbers of rounds", "why_tests_cant": "unbounded data; small random numbers are rare; the errors of Save are only printed", "anchors": ["internal/vssgen/vss.go: Save", "internal/vssgen/extension.go: ToMapStringInterface", "internal/tson/serialization.go: MarshalIndent", "internal/tson/serialization.go: formatPrimitive", "internal/tson/tson.go: checkLeaf"]}
{"id": "C71", "title": "Files of generated patches are read back as the patches", "statement": "For a patch whose operation names, paths and texts need no escapes and whose numbers are printed so that they read back, the file written by VssPatch.Save decodes as JSON to exactly the patch, and tsonpatch.Unmarshal reads from it the operations with the same kinds, paths, values and (rounded) timestamps, in order. The data sets that Generate makes of suitable schemas have such patches in every round of GenerateNext, for any number of rounds. Rounded timestamps are kept by further writing and reading. A quote in a name or a control character in a value makes the file unreadable, and a schema node without datatype makes Save of the second file panic.", "quantifier": "all patches, schemas, data sets, random numbers, times and map orders", "why_tests_cant": "unbounded patches and rounds; the failures depend on characters in names and on rounding of timestamps", "anchors": ["internal/vssgen/vss.go: Save", "internal/vssgen/vss.go: GenerateNext", "internal/tsonpatch/tsonpatch.go: Unmarshal"]}
{"id": "C72", "title": "Files left by a run of the vehicle data generator", "statement": "With all options given, a suitable schema and suitable random numbers and times, vssgen.Generate ends normally, leaves files other than those of its cars alone, and for every car i writes car_i/tson/i_j.tson holding a data set for j = 1 and all j from 2 to the number of files, and car_i/patches/i_j.json holding the patch from data set 1 to data set j (for j = 1 a copy of the data set). Data set 1 has exactly the schema nodes whose random number is not above the size, with the time of the run and a value within the datatype or the allowed values of the node; every later one has the same leaves, each old or with its own time. The files are not a chain of patches. Without the option maintain_rate Generate panics before writing, and so it does if the data set file holds no map or, with a car to write, an attribute outside of any node. The program never gives this option, so for all flags it deletes the old files, writes metadata.json and panics. metadata.json is JSON for the options.", "quantifier": "all options, numbers of cars and files, schemas, random numbers, times, map orders and earlier files", "why_tests_cant": "unbounded numbers of cars and files, random data; the panic happens after the files are deleted and no test runs the program", "anchors": ["internal/vssgen/args.go: Generate", "internal/vssgen/args.go: ParseArgs", "internal/vssgen/args.go: PrepareOutputDir", "internal/vssgen/args.go: SaveMetadata", "web_demo.go: generateVss"]}
{"id": "C73", "title": "What the web demo sends for generated data", "statement": "After a run as in C72 updateHandler sends the first data set of a car, or its patch j. Whenever patchHandler sends a document for the patches up to k, that is null if no cell changed up to data set k, or else a TSON document in which every cell of the first data set has its first value and timestamp at its path; the values of data set k are not shown at their paths. If the node names of the schema contain no slash and are no integers, patchHandler answers for every k from 2 to the number of files, and the leaves of its document are exactly the cells of the first data set and, below a member with an empty name, each cell that differs from the first data set in some data set up to k, with the value and the rounded timestamp of the last such data set; with an integer as a name it can panic. For k < 2 patchHandler panics.", "quantifier": "all runs, cars, numbers k and heaps", "why_tests_cant": "unbounded data sets and patches; the handlers have no tests", "anchors": ["web_demo.go: updateHandler", "web_demo.go: patchHandler", "internal/logument/logument.go: Store", "internal/logument/logument.go: Snapshot", "internal/tsonpatch/tsonpatch.go: ApplyPatch"]}
{"id": "C74", "title": "Snapshots of an experiment's log", "statement": "For a document without nulls whose names contain no '/', '.' or '~', and any list of updates of its scalars, createLogumentFromPatches makes a log on which TemporalSnapshot, called at ascending times (equal ones allowed), returns null before the first update and from then on the document of that time: every scalar has the value and timestamp of its latest update, if that is the only one at its time, or its initial value and timestamp -1; everything else is as in the initial document. Called for an earlier time after a later one it still shows later values. createLogumentFromPatches panics exactly if the plain structure of the file is a scalar or has a null inside. A query that panics stops the run of the experiment.", "quantifier": "all documents, updates, sequences of times, map orders and ways of sorting equal times", "why_tests_cant": "unbounded documents, updates and sequences of queries; the snapshot is edited in place, so the result depends on earlier queries", "anchors": ["exp/utils_temporal.go: createLogumentFromPatches", "exp/utils_temporal.go: RunTemporalSnapshotExperiment", "internal/logument/logument.go: TemporalSnapshot"]}
{"id": "C75", "title": "Tracks and event searches on a log", "statement": "filterTrackByPath of a temporal track holds, per version, exactly the operations of the window on the path that change its value; findEventsInLogument returns the times of those among them that set a number above the threshold, whatever the iteration order. In an experiment with at most one update per time on the path, after at least one snapshot query, these are exactly, in ascending order, the times of updates in the window above the threshold that differ from the preceding update in the window. Before the first snapshot query every track is empty and no event is found. The search changes nothing; it panics exactly if the window ends before it begins or two values set on one path in it cannot be compared, and it never returns an error.", "quantifier": "all consistent logs, paths, windows, thresholds and iteration orders", "why_tests_cant": "unbounded logs and windows, random map order; results depend on whether a snapshot was asked for before", "anchors": ["exp/utils_temporal.go: filterTrackByPath", "exp/utils_temporal.go: findEventsInLogument", "internal/logument/logument.go: TemporalTrack"]}
{"id": "C76", "title": "The log and the temporal JSON document agree", "statement": "Built from the same file and updates, the log (asked at ascending times, from the first update on) and the temporal JSON document show equal values at every scalar below the top level that is not updated twice at one time nor at time 0. If moreover every update of the scalar changes it, the event searches of both find the same times in a window starting after time 0. Without these conditions they differ: before the first update the log answers null, the document also reports periods begun before the window, and the log reports an update that changes nothing if it is the first in the window.", "quantifier": "all documents, updates, queries, map orders and ways of sorting", "why_tests_cant": "relates two independent implementations on unbounded inputs; the differences need particular windows and times", "anchors": ["exp/utils_temporal.go: RunTemporalSnapshotExperiment", "exp/utils_temporal.go: RunEventSearchExperiment", "exp/tjson.go: TemporalSnapshot", "exp/tjson.go: FindEvents"]}
{"id": "C77", "title": "Counters, times and patch lists of a simulation", "statement": "In every run of the scenario simulation the counters agree with the lists: updates = value changes + timestamp-only updates, one set patch and one timing record per update (numbered from 1), a TSON patch exactly for the updates with a change, a JSON timestamp patch per update and a JSON value patch per change. Each sensor is updated at exactly the time steps that are multiples of its interval, in ascending order; the total depends on the intervals alone; the cumulative vectors count, every ten seconds, the patches of earlier updates. Every experiment of the program ends, with 34082 updates whatever the random numbers and map orders, while the estimate shown to the user is 91080.", "quantifier": "all vehicles, scenarios, durations, steps, random numbers, values of math.Sin and map orders", "why_tests_cant": "random values and map orders, unbounded durations; single runs of five simulated minutes", "anchors": ["exp/exp_scenario.go: runRealisticExperiment", "exp/utils.go: calculateExpectedUpdateCount", "exp/utils.go: calculateNewValue", "exp/scenario.go: InitializeVehicleData"]}
{"id": "C78", "title": "Documents of a simulation", "statement": "At the end of a run the JSON document has exactly one leaf per sensor, with value and time of its last update, and the TSON document one with value and time of its last recorded change. Replaying the JSON patches gives the timestamps of the JSON document and the values of the TSON document. Without scenario changes the sensors hold the values of the TSON document, and the values of the JSON document differ from them by less than 0.005. The sensor data rows show, for each step, the value before the step. Intended but false: the JSON document shows the values of the JSON patches; the documents show the sensors after a change of scenario.", "quantifier": "all vehicles whose paths are not below each other, random numbers, map orders, durations", "why_tests_cant": "every sequence of random values and every order of maps; drift accumulates in particular runs only", "anchors": ["exp/utils.go: updateJsonDoc", "exp/utils.go: updateTsonDoc", "exp/utils.go: vehicleDataToJsonDoc", "exp/utils.go: isEqual", "exp/sensor_data_save.go: RecordSensorData", "exp/scenario.go: UpdateScenarioState"]}
{"id": "C79", "title": "Ranges of simulated values", "statement": "Every value recorded in a run without scenario changes lies in the range its pattern and parameters define (limits of lines, walks and steps; baseline plus/minus noise or amplitude), and in every experiment of the program, for all random numbers and any sine bounded by 1, every number lies between the minimum and maximum of the sensor table, every boolean sensor carries booleans, and texts never change; some sensors stay in narrower scenario ranges. A sensor on a line moves by slope x interval per update and keeps only moves of at least 0.005, so the program's lines end at the same values in every run; longitude (highway) and battery temperature (charging) never change.", "quantifier": "all vehicles, random numbers in [0,1), sine functions, map orders, durations; float64 with rounding", "why_tests_cant": "rounding at the limits and all sequences of random numbers over thousands of updates", "anchors": ["exp/utils.go: calculateNewNumberValue", "exp/utils.go: isEqual", "exp/vss_config.go: VSSSensors", "exp/scenario.go: applyUrbanTrafficSettings", "exp/scenario.go: applyHighwayCruisingSettings", "exp/scenario.go: applyBatteryChargingSettings", "exp/scenario.go: updateAllSensorPatterns"]}
{"id": "C80", "title": "Scenario transitions", "statement": "The transitions of a mixed run are numbered from 1 and alternate between charging (battery at most 10) and urban traffic (battery at least 99.95), with at least 60 seconds before the first and between two, none missed once the cooldown is over, each with the battery level of the row of that step; their origin is always recorded as urban traffic. No experiment of the program, not even the mixed scenario, has a transition, so its sensors end with the values of the TSON patches and the times of the last updates.", "quantifier": "all vehicles with a battery level, random numbers, map orders, durations and steps", "why_tests_cant": "transitions need minutes of simulated time and particular battery levels; the shipped configuration never reaches one", "anchors": ["exp/scenario.go: UpdateScenarioState", "exp/scenario.go: NewScenarioState", "exp/exp_scenario.go: runRealisticExperiment"]}
{"id": "C81", "title": "The files of a run and the log made from them", "statement": "The log that the temporal experiment makes from the initial JSON file of a simulation run and from its TSON patches, asked at ascending times, answers null before the first patch and from then on shows exactly the sensors of the run, each with the value and time of the last patch on it, or with its initial value and -1.", "quantifier": "all vehicles with plain distinct paths, scenarios, random numbers, durations, map orders (also those of the decoded file) and ascending queries", "why_tests_cant": "all histories of random values and all orders of maps; relates a simulation to a log rebuilt from its files", "anchors": ["exp/exp_scenario.go: runRealisticExperiment", "exp/doc_data_save.go: SaveAllTSONPatches", "exp/exp_temporal.go: loadTSONPatches", "exp/utils_temporal.go: NewTemporalQueryExperiment, RunTemporalSnapshotExperiment"]}
{"id": "C82", "title": "The temporal experiment", "statement": "On the files of a run whose patches span at least ten seconds, the temporal experiment ends without panic: it asks at 61 ascending times spread evenly from the first patch to the last, the log shows the run at each, the temporal JSON document agrees with the log at every sensor not patched at time 0, the tracks are the patches of the four tracked sensors, and the event search finds in a window of ten seconds exactly the speed patches above each threshold (the document the same ones, apart from a period begun earlier). Every urban run meets the conditions. Intended but false: agreement at all sensors (every urban run patches the battery charge at time 0, and the document contradicts the log at time 0 or 1 for every sort); ending for all runs (panic below ten seconds).", "quantifier": "all runs, random numbers, sine functions, map orders, sort results, clocks and windows drawn", "why_tests_cant": "composition of simulation, files, log, document and queries over all random values; the contradiction depends on an unstable sort", "anchors": ["exp/exp_temporal.go: RunTemporalQueryExperiments, generateTimestamps, getTimeRange", "exp/utils_temporal.go: NewTemporalQueryExperiment, RunTemporalSnapshotExperiment, RunTemporalTrackExperiment, RunEventSearchExperiment", "exp/tjson.go: FromTSONPatches, TemporalSnapshot, TemporalTrack, FindEvents"]}
{"id": "C83", "title": "The directory of the latest run", "statement": "The directory of the latest run is found: the result is a directory named yyyymmdd_hhmmss whose date and time, read as a number, is greatest among all such directories; without one an error is returned, and it never panics.", "quantifier": "all lists of directory entries in any order", "why_tests_cant": "all names and orders; equates text order with numeric order", "anchors": ["exp/exp_temporal.go: findLatestTimestampDir"]}
{"id": "C84", "title": "The results of the experiments", "statement": "The counts that an experiment reports fit together (JSON patches = updates + value changes, TSON patches = value changes). The reported reduction is between 50 and 100 percent as rounded, falls with the number of changes, and is the share of JSON patches saved up to a thousandth of a percent; percentages and bandwidths are on the right side of every integer. The JSON patches are at least 39 bytes per update longer than the TSON patches if all values are finite, and one change to a value that is not makes all sizes 0. The program's experiments have finite values only. The rows of the cumulative counts never panic.", "quantifier": "all vehicles, scenarios, durations, random draws, map orders and texts of numbers", "why_tests_cant": "a run shows one set of figures; bounds for all runs need the rounding of float64 and the lengths of all escaped texts", "anchors": ["exp/exp_scenario.go: RealworldScenario", "exp/exp_scenario.go: runRealisticExperiment"]}
{"id": "C85", "title": "The snapshot files", "statement": "CreateSnapshot writes one file for the initial document and one after each patch. The file number k is the initial document with every scalar at the value and timestamp of its last update among the first k, and everything else unchanged; no other file is touched, so files of an earlier call with more patches stay. At the first patch on a scalar that is refused it panics with the files before it written. On the files of a simulation, file k shows exactly the sensors, each as the first k patches leave it; the file numbered by the patches up to a time is what is known at that time.", "quantifier": "all files without nulls, lists of updates, directories, simulations and times", "why_tests_cant": "all documents, updates and orders; the files of one run are an example, and in-place edits could leak between files", "anchors": ["exp/utils_temporal.go: CreateSnapshot", "exp/utils_temporal.go: saveResultToFile"]}
{"id": "C86", "title": "A log fed with generated patches", "statement": "Patches between documents, stored as GeneratePatch or GeneratePatchWithTimestamp make them, never reach the log's document: after any calls, every Snapshot and TemporalSnapshot that returns a document returns one whose members with a name are exactly those of the initial document. With the leading slash of every path removed the log follows: for documents where each patch is non-empty and transforms (bridged), Snapshot(v), asked in ascending order, returns the v-th document up to member order (and up to timestamps for GeneratePatch).", "quantifier": "all initial documents, sequences of documents, versions, calls, sort and map orders", "why_tests_cant": "sequences of documents and calls of any length; each patch is generated from the true document but applied to the one the log has reached, so differences could build up", "anchors": ["internal/tsonpatch/tsonpatch.go: GeneratePatch", "internal/logument/logument.go: Append", "internal/logument/logument.go: Snapshot", "internal/logument/logument.go: TemporalSnapshot"]}
{"id": "C87", "title": "Equal documents stay equal", "statement": "Applying one patch without NaN to two object documents that are equal up to the order of members and the sign of zeros (and, if wanted, up to timestamps) has the same outcome (success, error or panic) and leaves equal documents, also when it fails in the middle.", "quantifier": "all pairs of equal documents, all patches without NaN", "why_tests_cant": "Go maps have no fixed order and runs show one; the statement covers all operations, paths and failures", "anchors": ["internal/tsonpatch/tsonpatch.go: ApplyPatch", "internal/tsonpatch/tsonpatch.go: applyTraverse"]}
{"id": "C88", "title": "CSV text", "statement": "The text that the experiments write for a table is, in the syntax of RFC 4180 with lines ended by a newline, the text of exactly that table and of no other, whatever characters (commas, quotes, newlines, spaces) its cells hold.", "quantifier": "all tables whose lines have at least one cell", "why_tests_cant": "all strings in all cells; uniqueness is about all other tables", "anchors": ["exp/exp_scenario.go: RealworldScenario", "exp/sensor_data_save.go: RecordSensorData", "exp/utils_temporal.go: SaveResults"]}
{"id": "C89", "title": "Numbers in the tables", "statement": "An integer is written as a text that denotes it and no other. A finite float64 written with d>0 decimals is the number with d decimals nearest to it, the even one of two, with its sign. A text denotes one number only, and greater floats are shown as greater or equal numbers.", "quantifier": "all integers, all finite float64 values, all d > 0", "why_tests_cant": "2^64 floats, each with an exact rounding", "anchors": ["exp/exp_scenario.go: RealworldScenario", "exp/sensor_data_save.go: RecordSensorData", "exp/utils_temporal.go: SaveResults"]}
{"id": "C90", "title": "The tables of a simulation", "statement": "Each file reads as one table. A recorded sensor's file has one line per time step with the value its TSON patches leave then. timing.csv has one line per update, in order, numbered from 1, says whether the value changed (exactly those updates become TSON patches), and its percentage is within 0.01 of the exact one (0.00 without a JSON time). cumulative.csv has one line per time recorded with its counts. results.csv has one line as long as the header with the figures of the report; bandwidths and reduction are within 0.01 of the exact quotients, and the reduction shown is between 50 and 100. transitions.csv is written only for a mixed scenario with transitions, one line each; no experiment of the program writes it.", "quantifier": "all runs, vehicles, clocks, measured times, orders of maps; for the last part all random numbers", "why_tests_cant": "runs of any length with arbitrary random numbers and measured times", "anchors": ["exp/exp_scenario.go: RealworldScenario", "exp/exp_scenario.go: runRealisticExperiment", "exp/sensor_data_save.go: RecordSensorData", "exp/sensor_data_save.go: NewSensorDataRecorder"]}
{"id": "C91", "title": "The tables of the queries", "statement": "SaveResults writes one table, all of whose lines have as many cells as the header, with one line per result in order: names and parameter unchanged, the four integers, and percentages within 0.01 of (Logument - TJSON) / TJSON for figures below 2^31, and 0.00 if the TJSON figure is 0.", "quantifier": "all lists of results", "why_tests_cant": "all results with arbitrary strings and figures", "anchors": ["exp/utils_temporal.go: SaveResults"]}
{"id": "C92", "title": "Indented JSON", "statement": "json.MarshalIndent as used for the files and by ToCompatibleTsonString writes JSON text with exactly the meaning of the compact text, for every data tree whose strings are UTF-8 and whose numbers survive; it fails exactly if a number is NaN or infinite. ToCompatibleTsonString panics exactly where ToCompatibleTsonBytes returns an error, and otherwise writes the same JSON.", "quantifier": "all data trees, all indentations of white space, all TSON documents", "why_tests_cant": "trees of any depth and width, arbitrary strings", "anchors": ["internal/tson/serialization.go: ToCompatibleTsonString", "exp/doc_data_save.go: saveJSONToFile"]}
{"id": "C93", "title": "The files a run leaves behind", "statement": "The directory of a run is named yyyymmdd_hhmmss of its time: different times have different names, and a later time the greater number. The four documents, the JSON patches and the TSON patches of a run are read back from its files; no other file of the directory changes. A patch whose value is not finite makes the file with the TSON patches not be written. A text is read as a list of patches exactly if it is JSON for them (member names in any case, the last one of a name counts, null for none), and reading never panics.", "quantifier": "all times, all runs and vehicles whose names are UTF-8 and whose numbers survive, all earlier contents of the directory, all texts", "why_tests_cant": "runs of any length with arbitrary values, and arbitrary file contents", "anchors": ["exp/doc_data_save.go: NewDataStorage", "exp/doc_data_save.go: SaveInitialJSON", "exp/doc_data_save.go: SaveFinalTSON", "exp/doc_data_save.go: SaveAllTSONPatches", "exp/doc_data_save.go: saveJSONToFile", "exp/exp_temporal.go: loadTSONPatches"]}
{"id": "C94", "title": "The temporal program on a directory of runs", "statement": "RunTemporalQueryExperiments takes the newest run in the directory, whatever else is in it, and its answers are correct about that run (as in C82) if its patches span at least ten seconds; every run of the urban scenario does, for all random numbers. Without a run it ends with an error message; it panics if the newest run spans less than ten seconds, and if one of its patches is NaN or infinite.", "quantifier": "all directories, runs, orders of decoded maps, sort results; for the urban scenario all random numbers", "why_tests_cant": "whole program over arbitrary simulated runs and map orders", "anchors": ["exp/exp_temporal.go: RunTemporalQueryExperiments", "exp/exp_temporal.go: loadTSONPatches", "exp/utils_temporal.go: NewTemporalQueryExperiment"]}
{"id": "C95", "title": "The whole program on a disk with earlier results", "statement": "main always ends, and for each of the three scenarios whose directory can be used (no directory has the name of one of its tables, no file that of the run) there is then a directory named by the start of the run whose six files read back exactly as the documents and patches of that run, for all random numbers, map orders and earlier contents. Nothing else on the disk changes except the tables and sensor_data; in particular no directory of another run. A scenario one of whose tables cannot be created is skipped, and the others are not. The temporal program run next answers correctly about the urban run just made, if no run in the directory has a later name; if one has, its answers are those it would have given before.", "quantifier": "all disks, clocks, random numbers, map orders, tables", "why_tests_cant": "the disk may hold anything, and the values of the run depend on random numbers and map orders", "anchors": ["main.go: main", "main.go: ScenarioExperiment", "main.go: TemporalQueryExperiment", "exp/exp_scenario.go: RealworldScenario", "exp/doc_data_save.go: NewDataStorage", "exp/sensor_data_save.go: NewSensorDataRecorder"]}
{"id": "C96", "title": "Logs that share operation slices", "statement": "A log made by Slice and the log it was taken from show the same operations in the versions of the slice, after any later calls on any logs, until Track or Compact is called on one of the two; so a TemporalSnapshot on the slice reorders the operations of the log itself, and Snapshot of the log can return another document than before. Beyond that nothing is shared: calls on other logs leave the versions and pending operations of a log, and the operations of each version up to their order, and exactly when they are in strict time order or no TemporalSnapshot was made. The log a call is made on, and a log made by Slice or TemporalSlice, are what the calls give on logs that share nothing. So, however the calls on several logs are mixed, a log ends as if only the calls on it had been made, as long as other logs make temporal queries only while its operations are in strict time order.", "quantifier": "all histories of calls on any number of logs, all operations, capacities and sort orders, for a caller that keeps off the arrays of the logs", "why_tests_cant": "the effect of one log on another depends on the history of both and on the order of equal timestamps", "anchors": ["internal/logument/logument.go: Slice", "internal/logument/logument.go: TemporalSnapshot", "internal/logument/logument.go: TemporalSlice", "internal/logument/logument.go: Track", "internal/logument/logument.go: Compact"]}
{"id": "C97", "title": "A log and its slices have one document, and other documents are safe", "statement": "In any history of calls, a log over an object document and all logs made from it by Slice and TemporalSlice, directly or through other slices, keep as snapshots and current document only that one object, or null, and answer it to Snapshot and TemporalSnapshot; so a value set through the log shows in all of them, a slice does not keep what it showed when it was made, and asking a slice changes what the log shows. A sliced log never has a current document: setting a value through it panics and changes nothing. Calls on logs of other documents change neither the logs of a group nor its document, which stays a readable object.", "quantifier": "all histories of making logs from texts or unshared object documents, calling any method on any log, and outside edits that keep the documents apart", "why_tests_cant": "the logs form a growing family with arbitrary interleavings; a test sees one interleaving", "anchors": ["internal/logument/logument.go: NewLogument", "internal/logument/logument.go: Slice", "internal/logument/logument.go: TemporalSlice", "internal/logument/logument.go: Snapshot", "internal/logument/logument.go: Set"]}
{"id": "C98", "title": "Printed listings of vehicle data", "statement": "The listing of PrintWithIndex numbers its lines from 1 with at least five digits, and its lines can be told from it without doubt; joined by line feeds they are JSON text that decodes to the data, and there is one line for every bracket of a container that is not empty and one for every other value, whatever line feeds the strings hold. If a number in the data is NaN or infinite the listing is the single line 1, empty. What Print prints for data that can be stored is read by the TSON parser as the document with the cells as leaves and their exact timestamps.", "quantifier": "all data, number formats that read back, unbounded numbers of lines", "why_tests_cant": "unbounded data with arbitrary strings; numbers of lines beyond five digits", "anchors": ["internal/vssgen/vss.go: PrintWithIndex", "internal/vssgen/vss.go: Print"]}
{"id": "C99", "title": "Patches and logs over array documents", "statement": "ApplyOperation on an array sets the element at an index, filling a gap with nulls, or removes one and closes the gap. ApplyPatch and Snapshot should do so one operation after the other. In fact every operation works on the array as it was handed in: an element set behind its end is lost unless it is set by the last operation, a removal leaves the last element twice, and the length of the result depends on the last operation only. Snapshot does the same with all operations since the latest snapshot, across versions, so asking for version 1 first changes the answer for version 2, and TemporalSnapshot can give two answers for one query. Edits within the array all take effect in place, and Set calls build the right current document.", "quantifier": "all arrays, indices, patches and logs of any number of versions", "why_tests_cant": "the fault shows only for array roots with several growing or shrinking operations, and depends on earlier queries and on map iteration order", "anchors": ["internal/tsonpatch/tsonpatch.go: ApplyPatch", "internal/tsonpatch/tsonpatch.go: applyTraverse", "internal/logument/logument.go: Snapshot", "internal/logument/logument.go: TemporalSnapshot", "internal/logument/logument.go: Set"]}
{"id": "C100", "title": "Editing below a node is editing the node", "statement": "What ApplyOperation does to a document is given by its content. With a path of more than one name it does to the member or, in an array document, to the element named first what it does with the rest of the path to that node as a document of its own; the outcome is the same and no other member or element changes. A failure leaves null in place of the node. Adding and replacing below a member that is missing or null start from an empty object, or an empty array if the next name reads as a number; other operations fail there and change nothing, as does every operation below an element that the array does not have. Below a member that is a leaf every operation panics; a document that is a leaf is left as it is, null fails, and in an array document a name that is no number fails and a negative one panics. For a member that is an array this is false.", "quantifier": "all documents, operations and paths of any length", "why_tests_cant": "a compositional law over unbounded trees and paths; a test compares finitely many pairs of edits", "anchors": ["internal/tsonpatch/tsonpatch.go: ApplyOperation", "internal/tsonpatch/tsonpatch.go: applyTraverse"]}
{"id": "C101", "title": "The listing of a temporal JSON document", "statement": "For two temporal JSON documents whose names and data print on one line, PrettyPrint writes the same text exactly when the documents have the same items with the same periods and children in the same order, and the same versions with data of the same text. Every item has a line with its name and period, indented by four blanks for every item above it, followed by its versions numbered from zero and in order; besides these only titles and empty lines are written. Every document FromTSONPatches builds from paths and values that print on one line is of this kind. A string value with line feeds can be listed like a second version.", "quantifier": "all documents of any depth, patch lists and iteration orders, and all ways to print data", "why_tests_cant": "that a text determines a tree of any depth with arbitrary names is about all pairs of documents; a test compares finitely many outputs", "anchors": ["exp/tjson.go: PrettyPrint", "exp/tjson.go: printChildren", "exp/tjson.go: FromTSONPatches"]}
{"id": "C102", "title": "The web demo answers with files of the data set only", "statement": "The answer of updateHandler to query parameters without a slash is the content of the file of that car and number in the data set, or empty if there is none. With a slash in a parameter it is empty, provided the data set has only the directories the generator makes and no directory called tson or patches anywhere has directories in it; without the latter a request can read a file outside of the data set. So for all parameters the handlers read what the plain names of the files say.", "quantifier": "all file systems without links, working directories and query parameters", "why_tests_cant": "security against all request parameters and directory trees; a test tries finitely many traversals", "anchors": ["web_demo.go: updateHandler", "web_demo.go: patchHandler", "internal/vssgen/args.go: Generate"]}
{"id": "C103", "title": "A slice used as a log", "statement": "Any sequence of Snapshot, Slice and Track calls about versions of a slice made by Slice(vi,vj) gets the same answers from the slice as from the log it was made of, and leaves the same documents, when the log has a snapshot of vi after the call; if the slice reaches the latest version and nothing is pending, this stays so when patches are stored and appended to the slice instead of the log. A slice that ends earlier goes on after its own last version. TemporalTrack on a slice reports changes against the operations of the slice alone. A user expects History to work on a slice; in fact it panics on every slice that begins after version 0 as soon as the slice has an operation on the target.", "quantifier": "all reachable logs, version ranges and sequences of calls", "why_tests_cant": "equality of all answers over all call sequences between two logs of different content", "anchors": ["internal/logument/logument.go: Slice", "internal/logument/logument.go: Snapshot", "internal/logument/logument.go: Track", "internal/logument/logument.go: TemporalTrack", "internal/logument/logument.go: History"]}
{"id": "C104", "title": "A time slice used as a log", "statement": "TemporalTrack on a log made by TemporalSlice(tsi,tsj) answers like TemporalTrack on the original log for the times in both ranges, and slicing by time again keeps the versions and operations of one slice by the times in both ranges. If every version has at most one operation in the range and no version between two such versions lacks one, Compact works on the slice as on a log of these operations; otherwise Snapshot, Slice, TemporalSlice, Track, Compact and History all panic and change nothing. Appending to the slice makes the next version if its last two version entries follow each other (or there is one only), is an error that keeps the patch pending if they do not, and panics if the slice has no operations. If no stored snapshot falls in the range, the snapshot of the slice's first version is the document at the start of the range and the operations of that version have no effect on any snapshot.", "quantifier": "all reachable logs, time ranges, documents and later calls", "why_tests_cant": "an exact condition over all logs and ranges under which the slice can be used at all, and equality of answers over all pairs of ranges", "anchors": ["internal/logument/logument.go: TemporalSlice", "internal/logument/logument.go: isContinuous", "internal/logument/logument.go: isGrown", "internal/logument/logument.go: TemporalTrack", "internal/logument/logument.go: Append", "internal/logument/logument.go: Compact", "internal/logument/logument.go: Snapshot"]}
{"id": "C105", "title": "Compact and the calls after it", "statement": "Compact calls with two targets can be exchanged: if both finish in one order they finish in the other and leave the same log. Compacting a longer target after its prefix changes nothing, and compacting it before makes no difference. Track over all versions leaves the log as Compact of all paths does, also when it panics, and returns the patches from before. History answers the same before and after any Compact, and so does TemporalTrack of a range with all operations. If operations were recorded in time order, TemporalTrack of any other range answers, after Compact of all paths, with the operations in the range that changed a value in the whole log, all of which it reported before too; if they were not, it may report an operation it did not report before.", "quantifier": "all reachable logs, targets, time ranges and map iteration orders", "why_tests_cant": "equality of logs and of answers over all logs, all pairs of targets and all ranges", "anchors": ["internal/logument/logument.go: Compact", "internal/logument/logument.go: Track", "internal/logument/logument.go: TemporalTrack", "internal/logument/logument.go: History"]}
{"id": "C106", "title": "Track and the calls after it", "statement": "Track changes the log, but only drops operations that repeat the value of their path: History, Compact of all paths, and TemporalTrack of a range with all operations answer the same, or leave the same log, before and after it. Track of the same range or a part of it afterwards changes nothing, and Track of a part of the range before makes no difference. Track calls about ranges without a common version can be exchanged, and so can Track and Compact of any target. If the operations are independent writes of plain values, replaying the log left gives the same values at every version. A user expects the order of queries not to matter; for overlapping ranges the log left does depend on it.", "quantifier": "all reachable logs, version ranges, targets, time ranges and map iteration orders", "why_tests_cant": "equality of logs and answers over all logs and all pairs of ranges", "anchors": ["internal/logument/logument.go: Track", "internal/logument/logument.go: Compact", "internal/logument/logument.go: History", "internal/logument/logument.go: TemporalTrack"]}
{"id": "C107", "title": "How operations are put into versions", "statement": "However Store and Append alternate, once Append has come last the log holds everything stored, in order, and documents and snapshots are as before. Two logs with the same operations in different versions answer alike: Compact of a target ends the same way and leaves the same operations, Track of all versions and TemporalTrack of any range report the same operations, History answers the same when it meets the versions in their order, and Snapshot of the last version gives the same document or panics alike, if only the first snapshot is kept and the last versions are not empty. A user expects the same of TemporalSnapshot; it does depend on the versions.", "quantifier": "all pairs of reachable logs with the same operations, all targets, time ranges and sequences of Store and Append", "why_tests_cant": "relates two arbitrary logs of any length and any way to divide their operations", "anchors": ["internal/logument/logument.go: Store", "internal/logument/logument.go: Append", "internal/logument/logument.go: Compact", "internal/logument/logument.go: Track", "internal/logument/logument.go: TemporalTrack", "internal/logument/logument.go: History", "internal/logument/logument.go: Snapshot", "internal/logument/logument.go: TemporalSnapshot"]}
{"id": "C108", "title": "The ways to ask for changes agree", "statement": "TemporalTrack of a range with all operations, Compact of all paths and Track of all versions end alike, and what the first reports is what the other two leave. History has for each path below its target the initial value followed by what TemporalTrack reports about the path, if it meets the versions in their order. History of a longer target is the part of the History of its prefix that is below it, for any order. If operations were recorded in time order, TemporalTrack of a shorter range reports every operation in it that TemporalTrack of the longer range reports; a user expects this always, but without time order it may miss one.", "quantifier": "all reachable logs, targets, time ranges and map iteration orders", "why_tests_cant": "relates the answers of four operations over all logs, targets and ranges", "anchors": ["internal/logument/logument.go: TemporalTrack", "internal/logument/logument.go: Track", "internal/logument/logument.go: Compact", "internal/logument/logument.go: History"]}
{"id": "C109", "title": "Files with numbers in their names", "statement": "SaveJSONPatch, SaveTSONPatch, SaveJSONSnapshot and SaveTSONSnapshot use one file for each method and number, whose name has the number filled with zeros. After any sequence of calls such a file holds the data last saved with its method and number that could be marshalled; every other file is as before, so the temporal program answers the same. The names are in the order of the numbers from zero up to 9999 for patches and 999999999 for snapshots; names of negative numbers come first, in the opposite order; a user expects order always, but larger numbers lose it.", "quantifier": "all numbers, all data, all sequences of calls and all contents of the directory", "why_tests_cant": "the names of all pairs of numbers must differ, and any sequence of calls is covered", "anchors": ["exp/doc_data_save.go: SaveJSONPatch", "exp/doc_data_save.go: SaveTSONPatch", "exp/doc_data_save.go: SaveJSONSnapshot", "exp/doc_data_save.go: SaveTSONSnapshot", "exp/doc_data_save.go: saveJSONToFile"]}
{"id": "C110", "title": "Where the values of a document come from", "statement": "ApplyPatch, whether it succeeds or fails, leaves only values with timestamps that were in the document or that an add or replace of the patch gives. After any calls on a log over an object document, failed ones included, every value with its timestamp in the document, and in what Snapshot and TemporalSnapshot answer, was in the initial document or was handed to New, Store, Set or TestSet; Snapshot adds values of the versions up to the one asked for only. So GetLatestTimestamp of the document is 0 or such a timestamp. If only paths of names and values other than arrays and objects are handed over, a value reached by names was under these names in the initial document or was given by an operation whose path spells them. With an object as value it is not so.", "quantifier": "all documents, patches, outcomes, and sequences of calls of all kinds", "why_tests_cant": "an invariant over all sequences of calls", "anchors": ["internal/tsonpatch/tsonpatch.go: ApplyPatch", "internal/logument/logument.go: Snapshot", "internal/logument/logument.go: TemporalSnapshot", "internal/logument/logument.go: Set", "internal/logument/logument.go: TestSet", "internal/tson/tson.go: GetLatestTimestamp"]}
