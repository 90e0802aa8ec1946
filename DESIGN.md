# Design of the logument model

The Go source in /repo is modelled function by function in Gallina (Coq 8.16.1,
std++ for finite maps). This file says what is modelled, how every property of
`properties.jsonl` is proved, and what is trusted.

## Layout (`rocq/theories`)

Model, definitions only:

| file | content |
|---|---|
| `Base.v` | results with explicit error/panic, byte strings, `strings.Split`, `strings.NewReplacer`, `strconv.Atoi` |
| `F64.v` | float64 as `SpecFloat.spec_float` with Go's `==`, int64 -> float64 |
| `Tson.v` | TSON trees; `GetValue`, `GetLatestTimestamp`, conversions, `Equal*` |
| `Serial.v` | `Marshal`, `MarshalIndent`, `Unmarshal` |
| `GoText.v` | number printing and parsing for the concrete cases |
| `Heap.v` | Go heap: objects (maps) and array backing stores; aliasing |
| `Patch.v` | `ApplyOperation`, `ApplyPatch` on the heap |
| `Diff.v` | `GeneratePatch`, `GeneratePatchWithTimestamp` on trees |
| `Logument.v` | `Logument` state machine over the heap |
| `Bytes.v` | JSON written for documents (as ordered trees), `ToCompatibleTsonBytes*`, `parseValue` |
| `Json.v` | the JSON scanner and writer of `encoding/json` on bytes; patches and documents as JSON text |
| `Tjson.v` | the temporal JSON document of the experiments (`exp/tjson.go`) |
| `TjsonPrint.v` | what `PrettyPrint` writes for it |
| `Serve.v` | `updateHandler` (`web_demo.go`) on a file system with resolution of `..` |
| `Initial.v` | initial patches of the experiments (`exp/utils_temporal.go`) |
| `Query.v` | the queries of the experiments on the log (`exp/utils_temporal.go`) |
| `Sensor.v` | sensors of the simulated vehicle, new values, the two documents (`exp/utils.go`) |
| `Scenario.v` | the table of sensors, scenarios and their transitions (`exp/vss_config.go`, `exp/scenario.go`) |
| `Sim.v` | the simulation (`exp/exp_scenario.go`, `exp/sensor_data_save.go`) |
| `Temporal.v` | the files of a simulation and the temporal experiment on them (`exp/doc_data_save.go`, `exp/exp_temporal.go`) |
| `Report.v` | the results of a simulation: counts, sizes, percentages and bandwidths (`exp/exp_scenario.go` 108-311, 571-607) |
| `Snaps.v` | the snapshot files, one per patch (`exp/utils_temporal.go` 482-498, 615-671) |
| `Csv.v` | the CSV files of the experiments (`exp/exp_scenario.go` 108-311, 527-561; `exp/sensor_data_save.go` 46-145; `exp/utils_temporal.go` 294-349), the writer of `encoding/csv` and `%.2f`/`%.4f` |
| `Store.v` | the files of a run as texts: indented JSON, `ToCompatibleTsonString`, saving, reading, the temporal program on a directory of runs (`exp/doc_data_save.go`, `exp/exp_temporal.go` 19-154, `exp/utils_temporal.go` 352-365, 502-516, `internal/tson/serialization.go` 19-26) |
| `SaveNames.v` | the methods that save one patch or one snapshot (`exp/doc_data_save.go` 46-55, 78-87) |
| `Disk.v` | the program as a whole on a disk: the tables, directories and runs of all scenarios, and the temporal program afterwards (`main.go` 35-48, `exp/exp_scenario.go` 108-310) |
| `Vss.v` | the generator of vehicle data (`internal/vssgen`) |
| `VssRun.v` | runs of that generator over a map of files, and the handlers of the web demo (`args.go`, `web_demo.go`) |
| `Alias.v` | operation slices with backing arrays and capacities |
| `Share.v` | several logs over shared operation arrays: `Slice`, the sort of `TemporalSnapshot` in place, `Track`, `Compact`, `TemporalSlice` |
| `Family.v` | groups of logs over one heap: the log made from a document and everything sliced from it |
| `Listing.v` | the printed listings of vehicle data (internal/vssgen/vss.go 78-92) |

Specifications, which the property theorems use: `BaseSpec.v` (decimal numbers, RFC 6901
escapes), `TsonInd.v` (`wf`), `TextSpec.v`, `TsonSpec.v`, `BytesSpec.v`, `HeapSpec.v`, `PatchSpec.v`, `LogSpec.v`, `ReplaySpec.v`, `DiffSpec.v`, `TotalSpec.v`,
`TjsonSpec.v`, `TjsonPrintSpec.v`, `ServeSpec.v`, `InitialSpec.v`, `QuerySpec.v`, `SimSpec.v`, `RangeSpec.v`, `TemporalSpec.v`, `SnapAnySpec.v`, `SnapsSpec.v`, `ChainSpec.v`, `CsvSpec.v` (RFC 4180, decimals), `TableSpec.v`, `StoreSpec.v`, `DiskSpec.v`, `JsonSpec.v` (RFC 8259), `VssSpec.v`, `VssPatchSpec.v`, `VssFileSpec.v`, `VssPatchFileSpec.v`, `VssRunSpec.v`, `VssSentSpec.v`, `VssIndexSpec.v`, `VssAnySpec.v`, `AliasSpec.v`, `ShareSpec.v`, `FamilySpec.v`, `ListingSpec.v`, `ArrayRootSpec.v`, `EditSpec.v`.

Proofs: `BaseLemmas.v`, `BaseSpecLemmas.v`, `F64Lemmas.v`, `ParseComplete.v`, `ParseSound.v`, `PanicLemmas.v`, `MarshalText.v`,
`TextLemmas.v`, `TsonLemmas.v`, `ConvLemmas.v`, `ReadLemmas.v`, `BytesLemmas.v`, `Own.v` and `TreePatch.v` (the heap refines a
tree update), `PatchLemmas.v`, `LogLemmas.v`, `ChangeLemmas.v`, `CompactLemmas.v`,
`HistoryLemmas.v`, `SliceLemmas.v`, `ReplayLemmas.v`, `SnapAny.v`, `SetLemmas.v`, `TempFail.v`, `CompactReplay.v`,
`DiffLemmas.v`, `ArrayDiff.v`, `DiffPaths.v`, `DiffGrow.v`, `DiffApply.v`, `DiffExact.v`, `TjsonLemmas.v`, `TjsonSource.v`, `TjsonPrintLemmas.v`, `ServeLemmas.v`, `FromJsonErr.v`, `InitialLemmas.v`,
`QueryLemmas.v`, `QueryCreate.v`, `QueryFail.v`, `QueryTrack.v`, `QueryAgree.v`, `SimTrace.v`, `SimLemmas.v`, `SimTimes.v`, `SimDocs.v`, `SimFinal.v`,
`SimInit.v`, `SimPlace.v`, `SimExp.v`, `SimRows.v`, `FloatOrder.v` (rounding of float64 as in Flocq), `SimRange.v`, `SimTrans.v`,
`SimQuiet.v`, `SimStart.v`, `SimTable.v`, `SimLine.v`, `TempDocs.v`, `TempLog.v`, `TempTrack.v`, `TempTimes.v`, `TempRun.v`,
`TempUrban.v`, `TempZero.v`, `TempCharge.v`, `TempDir.v`, `ReportFloat.v` (the rounded figures), `ReportLemmas.v`, `SnapsLemmas.v`,
`CsvLemmas.v` (the writer and the grammar), `CsvOrder.v` (rounded percentages), `CsvFiles.v`, `StoreText.v` (indented texts), `StoreFiles.v`, `StoreRead.v`, `SimNumber.v`,
`StoreUrban.v` (the runs of all scenarios survive in their files), `DiskLemmas.v`, `ExactFloat.v` and `ExactNum.v` (a way to write numbers that is read back, for the cases),
`PatchCongr.v` (patches on equal documents), `ChainLemmas.v`, `JsonLemmas.v`, `JsonChars.v`, `JsonParse.v` (the scanner is the grammar), `JsonRead.v`, `JsonWrite.v`, `JsonPatch.v`,
`JsonDiff.v`, `JsonTson.v`, `JsonErr.v`, `VssLemmas.v`, `VssPlace.v`, `VssFloat.v`, `VssGen.v`, `VssData.v`, `VssNext.v`, `FrameDiff.v`,
`VssTidy.v`, `VssRead.v`, `VssPatch.v`, `VssRenew.v`, `DiffTotal.v`,
`VssBuild.v`, `NotJson.v` (angle brackets outside of literals), `VssSave.v`, `VssFile.v`,
`F64Round.v` (rounding a timestamp twice), `VssPatchFile.v`, `VssRunLemmas.v`,
`VssMeta.v`, `VssWeb.v`, `VssStop.v`, `VssSent.v`, `VssIndex.v`, `VssAny.v`, `VssAnyNext.v`, `AliasLemmas.v`, `ShareLemmas.v`, `ShareRun.v`, `FamilyLemmas.v`, `ListingLemmas.v`, `ArrayRoot.v`, `Edit.v`.

Concrete cases and witnesses: `*Demo.v`.

Property theorems only, each with `Print Assumptions` and a non-vacuity `Example`:
`Prop_Text.v`, `Prop_Tson.v`, `Prop_Bytes.v`, `Prop_Patch.v`, `Prop_Log.v`, `Prop_Replay.v`, `Prop_Diff.v`,
`Prop_Tjson.v`, `Prop_TjsonPrint.v`, `Prop_Serve.v`, `Prop_Initial.v`, `Prop_Query.v`, `Prop_Sim.v`, `Prop_SimRange.v`, `Prop_Temporal.v`, `Prop_Report.v`, `Prop_Snaps.v`, `Prop_Chain.v`, `Prop_Csv.v`, `Prop_Store.v`, `Prop_Disk.v`, `Prop_Json.v`, `Prop_Vss.v`, `Prop_Frame.v`, `Prop_VssPatch.v`, `Prop_VssFile.v`,
`Prop_VssPatchFile.v`, `Prop_VssRun.v`, `Prop_VssSent.v`, `Prop_VssIndex.v`, `Prop_VssAny.v`, `Prop_Alias.v`, `Prop_Share.v`, `Prop_Family.v`, `Prop_Listing.v`, `Prop_ArrayRoot.v`, `Prop_Edit.v`.

`RepoTests.v`: the repository's own tests and examples run on the model, as a check that it behaves like the
code where the tests say what they expect. No property depends on it.

## Modelling choices

* A Go `error` is the value `Err`; a panic is the value `Panic`; nil documents are explicit.
* Go strings are Coq byte strings.
* Maps are association lists with distinct keys. Quantifying over all lists covers
  every iteration order of Go's maps.
* Documents that are only read (serialization, diff, conversions) are pure trees.
  `ApplyOperation` and the log edit documents in place, so they run on a heap.
* An array value is (backing store, length); the backing store may be longer (capacity).
* float64 is the IEEE-754 binary64 of `Coq.Floats.SpecFloat` (no axioms).
* int64 timestamps are `Z`; uint64 versions are `N` without wrap-around.
* The text of a float64 (`%v`) and `ParseFloat` are parameters of the serializer
  proofs, or concrete functions where stated.
* `encoding/json` is modelled as a map between trees in `Tson.v` and `Bytes.v`; there the text is a
  tree that keeps the written order of members and the difference between integers and floats.
  `Json.v` models the bytes.
* Unstable sorts and random map orders are parameters constrained only by their contract.

## Properties

How each property is to be proved. "Refuted" means the intended statement is false
of the code; a `_refuted` theorem gives a witness or a universal description of the
actual behaviour, and the strongest true statement is proved beside it.

| id | plan |
|---|---|
| C01 | induction on the tree: parser of `Marshal` output followed by any delimiter returns the tree |
| C02 | same, for a printer with arbitrary white space |
| C03 | "never panics" refuted by `{"a":null}`; the panicking inputs characterised exactly by a grammar, and fuel shown sufficient |
| C04 | induction over the parser |
| C05 | C01 generalised to arbitrary suffixes |
| C06 | refuted for all keys and values |
| C07 | corollary of C01 |
| C08 | induction on the pointer; refutation for `/` in keys |
| C09 | induction on the tree |
| C10 | tree equality reflected by the JSON images; exactness of int64->float64 below 2^53 |
| C11 | as C10 on stripped trees; refuted for bare leaves |
| C12, C13 | induction on the tree |
| C14 | refuted: universal panic theorem for nulls |
| C15, C16 | ownership trees over the heap: the heap operation refines a pure tree update |
| C17 | refuted: universal description of the damage |
| C18 | induction on the patch |
| C19 | frame theorem on the heap |
| C20 | refuted universally; positive theorem by simulation of the diff on trees; exact condition for arrays whose length changes, by counting matched elements |
| C21-C24 | induction on the two trees / multiset argument |
| C25-C27 | invariants over all call sequences |
| C28 | refinement of the heap log to pure replay; the outcome in any reachable state |
| C29 | invariant: every snapshot is the same heap object |
| C30-C34 | list induction over the log |
| C35-C37 | characterisation of the results plus refutations |
| C38, C39 | direct, on top of C15 and C08 |
| C40 | separate slice-level model with explicit backing arrays and capacities; simulation of the value-level log |
| C41 | grammar of the text format: every accepted text is derivable and every derivable text accepted |
| C42, C43 | frame theorem and array case of the ownership argument |
| C44 | as C23, for the timestamp variant; refutations for arrays of different length; applying the unslashed patch between bridged documents |
| C45, C49 | inductive reading relations, equivalent to the functions |
| C46 | list induction |
| C47, C48 | sorted member lists are unique; the text determines the document |
| C50 | the decimal text has no dash; splitting it gives the numbers back |
| C51-C53 | invariant of the patch loop: closed periods plus the open one are the history of the path |
| C54, C55 | induction on the document; the transformation equals an inductive relation |
| C56 | the patches on a scalar computed by C55, then C52 |
| C57 | grammar as inductive relations; scanner sound and complete by induction on the derivation and on fuel |
| C58 | every written text derivable in the grammar, then C57 |
| C59 | induction on values; the smuggled text is the text of two operations |
| C60, C61 | corollaries; different documents have different syntax trees |
| C62 | the loop over a map that shrinks equals a filter; induction on the data |
| C63 | induction on the data; splitting a path at its dots gives the names back |
| C64 | assigning at pairwise unrelated paths gives a map with exactly these leaves; the product of a float below 1 and 100 is below 100; for C64_possible draws are made up for each value, the elements of an array taking every other draw, and collected over the finitely many nodes |
| C65 | as C64 for the leaves of the data set; induction on the rounds |
| C66 | induction on the frame; injectivity of written pointers for the absence of repeated paths |
| C67 | C65 for the cells, C61 for reading the data back, C66 for the diff, C58 for the patch text |
| C68 | induction on the new document; counting argument for the greedy matching of array elements |
| C69 | as C64, for paths of which none is a prefix of another; with indices the code equals a function that puts a value at a place, by induction over the way to it |
| C70 | the text of a data set is derivable in the TSON grammar, then C41; C64 and C65 with conditions on names and values; a scanner state for "outside of literals" separates JSON from TSON |
| C71 | the lines of the file are derivable in the JSON grammar, then C57; a double round trip through float64 and int64 is a single one |
| C72 | induction on the files of a car and on the cars, with C64, C65, C70, C71 for each; file names are injective |
| C73 | C72 for the files, then the heap refinement and C19 for the patches, all of whose paths start with a slash; for the full document the member with the empty name is shown to grow as a partial copy of the first data set |
| C74 | invariant of the log between queries: snapshot 0 shows the state of the last time asked for, all other operations are later |
| C75 | C31 restricted to one path; in the experiment all operations are in version 1, sorted |
| C76 | C74 and C56 on the same updates; C75 and the periods of C51 for the events |
| C77 | a run is a list of updates; projected to one sensor it is the run of that sensor alone; sorted lists with the same elements are equal |
| C78 | invariant of a document: its leaves at paths of which none is below another; the last update of a path |
| C79 | float64 operations are rounded real ones (Flocq) and rounding is monotone; the table is checked by computation, the drawn start values by lemma |
| C80 | the list of transitions is a function of the battery levels at the steps; a run in which it is empty is the run without scenarios |
| C81 | the decoded initial file is restored at each sensor; the patches of a run meet the conditions of C74 |
| C82 | C81, C75 and C76 composed; the times are rounded reals (Flocq); the urban run patches the charge at 0 and 299800 ms in every run |
| C83 | names of runs are numbers; comparing the texts is comparing the numbers; the sorted list ends in its maximum |
| C84 | the text of a patch is its parts and a path followed by an ASCII character is escaped in parts, so lengths add up; the figures are bounded through the reals (Flocq) |
| C85 | induction on the patches: the document after each is the one before with one leaf put, and a file's number determines its name |
| C86 | paths with a leading slash only touch the member with the empty name, an invariant of all calls; without it, C20/C44 for one step and C87 for the next, then C28 |
| C87 | the tree update respects the equality of documents, by induction on the path; the heap refines it |
| C88 | a cell needs quotes exactly if the plain form could be read otherwise; the rest of the text after a cell determines where it ends, by induction on the lines |
| C89 | the rounded quotient is within half a unit (integers only); order and percentages through the reals (Flocq) |
| C90 | C88 and C89 on the rows that C76-C84 describe |
| C91 | C88 and C89; a quotient of integers below 2^31 is within 1/1000 of the rounded one |
| C92 | induction on the data; the scanner accepts exactly the texts of the grammar (C57), so the trees agree |
| C93 | invariants of the documents along the run (names are UTF-8 and met once), C92, and the JSON reader of C57 |
| C94 | C83 finds the directory, C93 reads it, C82 answers; for urban runs C79 bounds the numbers |
| C95 | each scenario touches five names in its own directory (`leaves`); C79 bounds the numbers of every scenario, so C93 applies; C94 answers |
| C96 | invariant over all logs: patches share an array only when they are one slice, and the array of a pool is its own; simulation of the value-level log for the log called, frame for the others |
| C97 | invariant over all groups: the documents share nothing, each log keeps only the object of its group or null, and only the first log of a group has a current document; every method is shown to change no other document |
| C98 | C92 for the indented text; the line feeds of a text are counted through the grammars of numbers and strings; a number ends at the first colon and a line at the first line feed |
| C99 | one operation on an array root as in C43, plus what the old slice header shows afterwards; then induction over the patch with that header fixed; the versions of a log are one long patch |
| C100 | the walk of `ApplyOperation` on contents (`ptrav`) depends on the path only through its names; one step of the walk, for each kind of node |
| C101 | the listing as a list of lines; lines are told apart by their indentation and first letter, so the tree is read back by recursion |
| C102 | the parts of the name asked for; a slash in a parameter makes its first part a directory below `tson` or `patches` |
| C103 | simulation: the slice shows a window of the versions of the log, kept by every call, and by Store and Append when the window reaches the end |
| C104 | the slice's version list is sorted, so continuity is an exact condition on the operations per version; TemporalTrack and TemporalSlice by dropping versions without operations |
| C105 | two compactions in a row filter by either target, as last values per path are kept; in time order a repetition inside a range is one in the whole log |
| C106 | the log left differs by repetitions only (`thin`), and dropping repetitions does not change last values, changes or what Go can compare |
| C107 | each answer is a function of the operations in order, so it does not depend on where versions end |
| C108 | all of them compute the list of changes of the operations they select, and selecting by path or, in time order, by time can be done before or after |
| C109 | the text before the first point gives back the sign and the digits, so the name gives back method and number; digits of the same length compare like their values |
| C110 | an invariant of documents and logs, kept by each operation and each call: leaves are known, and so are operations recorded or pending; a second one for leaves and the names that lead to them |

## Findings

What the proofs and refutations show about the code:

* `ApplyOperation` keeps the first piece of the split path, so "/a" writes to member "a" of
  the member "" (C15). Generated patches start with a slash and therefore never change
  another member (C20). A name containing "/" or "." cannot be addressed, even as "~1".
* An error below a member replaces the member by nil on every level it passes (C17). `Set`
  then has a nil current state, panics, and so does every later `Set` (C38).
* A scalar written to an array element ignores further path pieces; an object written over a
  leaf element turns the array into that old leaf (also C110_place_refuted); add overwrites
  instead of inserting (C43).
* After a missing member, a name that reads as a number creates an array (C15).
* `ApplyPatch` of an empty patch returns nil, so a version without operations reads as null
  (C18, C28).
* All snapshots and the current state of a log are one object (C29): asking for a later
  version changes earlier snapshots, and so does `Set`. A version that could be asked for
  panics once a later one has been asked for, if its patch no longer fits (C28_back_refuted).
* `TestSet` and `History` address by `GetValue`, `Set` by `ApplyOperation`; the two path
  conventions disagree (C34, C39).
* `Track` compacts the log and returns uncompacted patches (C30). `Compact` matches paths as
  text prefixes and drops changes after a removal of an ancestor or in another spelling (C33).
* `TemporalSnapshot` looks at one version only (C37); `TemporalSlice` repeats versions, which makes
  the result unusable (C36).
* Value diffs of array elements panic for changed types and new containers (C24). C68 lists all
  cases in which no patch is returned; new containers in objects are among them. The
  timestamp diff drops changes in container elements and combines removals with updates by
  index (C44). Of the changes to the length of an array of leaves, the value diff makes exactly those that
  keep elements in order, drop the last of equal ones and add at the end; 1, 2, 1 to 2, 1 gives 1, 2 (C20).
* `Store` keeps the caller's slice; storing one slice twice can change a committed version
  without any write of the caller (C40).
* `FromCompatibleTson` panics on scalars outside leaves and turns leaves with a null or container
  value into nil (C45); the two byte functions write leaves differently (C48).
* `Marshal` output that `Unmarshal` loses: numbers with an exponent, and strings with control
  characters (other than \b \t \n \f \r), unprintable code points or invalid UTF-8 (C01). Null members panic (C03). Trailing bytes are dropped (C05).

* The temporal JSON document loses values at paths of one name; a period ending before time 0 is
  read as time 0, so a second patch at time 0 hides behind the first; snapshots show removed
  values and values not yet set; the last period ends at a clock in seconds whatever the unit of
  the patches (C51, C52). In the listing of `PrettyPrint` a value with line feeds can pass for
  another version (C101).
* `updateHandler` puts query parameters into a file name unchecked. On the data sets of the generator this is harmless,
  but a directory named by a car in a directory `tson` or `patches` anywhere lets a request read outside (C102).
* The experiments give the initial values time 0, so updates at time 0 are hidden then, and for good
  if the unstable sort puts them first; scalars at the
  top level are lost and arrays become objects (C56). An object with members "timestamp" and
  "value" is taken for a leaf (C54).

* The log of an experiment answers null before its first update and shows later values when asked for
  an earlier time again (C74). Its tracks and event searches are empty until a snapshot has been asked
  for (C75). Its events and those of the temporal JSON document differ at the start of the window (C76).

* The simulation announces 91080 updates and makes 34082, as intervals below the step of 100 ms are rounded
  up to it and the attributes are not in the estimate (C77). Steps below 0.005 are never added up: the JSON
  document shows a value that neither the patches nor the sensor have (C78). A change of scenario sets values
  without a patch (C78).
* A sensor on a line moves by slope x interval at each update, although sensors with an interval of 50 ms are updated every
  100 ms, and never changes if that is below 0.005: in the highway scenario the longitude stays while the latitude, with the
  same slope, goes 15 degrees north in five minutes, as 0.005 is rounded differently; the temperature of a charging battery
  stays too (C79). The speed of the highway scenario is drawn from 90 to 110 but is 99.5 to 100.5 from the first update on, and
  the brake follows "toggle", which numbers do not know (C79). The mixed scenario never changes the scenario in its
  300 seconds: the battery falls from 60 to 30 percent (C80). A transition back is recorded as one from urban traffic to urban
  traffic, as the previous scenario is read after it has been set (C80).

* Every sensor is due at time 0, the time of the initial patches, and in every urban run the charge of the battery changes then: the
  temporal JSON document contradicts the log at time 0 or 1, whatever the sort does (C56, C82). The first of the 61 queries is at time 0.
* The "patch reduction" of the results is never below 50 percent, even if every update changes the value, since the JSON count has a
  patch for each timestamp besides (C84). A single change to a value that is not finite makes all reported sizes 0, as the error of
  `json.Marshal` is dropped (C84); no experiment of the program has one.
* `CreateSnapshot` (called nowhere at this commit) does not clear its directory: the files of an earlier call with more patches stay beside
  the new ones (C85), so the highest number need not be the last state. It panics at the first patch that is refused.
* A log that is fed with the patches the generator makes (of vehicle data, say) shows the initial document for ever; the changes pile
  up under the member with the empty name (C86).
* No experiment of the program has a transition, so `transitions.csv` is never written (C90). In the tables of the queries a difference to a figure that
  is 0 is shown as 0.00, whatever the other figure is (C91).
* A run with one patch whose value is NaN or infinite loses its whole patch file, and only a line is printed (C93); the temporal program then panics (C94).
* After the clock was set back, the temporal program goes on answering about the run with the later name, not about the one just made (C95_stale).
* A log made by `Slice` shares its operation slices with the log it was taken from, and `TemporalSnapshot` sorts them in place: a temporal query on the slice changes what `Snapshot` of the log returns (C96_query_refuted).
* A log and everything sliced from it, at any depth, hold one document: `Set` on the log changes what its slices show, and `Snapshot` on a slice of a slice changes version 0 of the log (C97). Sliced logs never have a current document, so `Set` on them panics.
* `History` reads the snapshot of version 0, which a slice from a later version does not have: it panics on every such slice with an operation on the target (C103).
* A log made by `TemporalSlice` is usable only if no version has two operations in the range and no version between two with one has none; otherwise every call that checks the versions panics, and `Append` fails unless its last two version entries follow each other (C104).
* If no stored snapshot falls in the range, `TemporalSlice` stores the document at the start of the range as the snapshot of the slice's first version, so the operations of that version are never applied: `Snapshot` of the slice differs from `Snapshot` of the log (C104, case `first_missing`).
* `TemporalTrack` compares only the operations in its range, so `Compact` changes its answer: a repetition whose predecessor is before the range is reported before `Compact` and not after, and if the times of recorded operations go back, an operation may be reported that was not before (C105, cases `twice_ordered` and `C105_order_refuted`).
* `Track` rewrites the patches of its range, so the log left by `Track(1,2)` and `Track(2,3)` depends on which is called first (C106_overlap_refuted).
* `TemporalSnapshot` of two logs with the same operations can differ: it applies one version only, so it depends on how operations were put into versions (C107_temporal_snapshot_refuted).
* `TemporalTrack` of a shorter range can miss an operation in it that the longer range reports, when operations were not recorded in time order (C108_narrow_refuted).
* The names of `SaveJSONPatch` and the like are not in the order of the numbers from 10000 on, nor those of snapshots from 10^9 on (C109_order_refuted).
* `ToCompatibleTsonString` panics where `ToCompatibleTsonBytes` returns an error (C92).
* Two runs of one scenario started within the same second share a directory (C93: names differ only if the times do).
* The event search of the experiment panics if the patches span less than ten seconds, and so if there are none (C82).

* `Patch.String` and `Operation.Marshal` do not escape names and paths: a path can smuggle in
  operations; NaN makes `String` return text that is not JSON (C59). TSON documents as patch values
  come back as plain maps, which `ApplyOperation` refuses (C58).
* `NewVssJson` drops or keeps a branch called "type" or "comment" depending on its siblings (C62).
  `LeafNodes` can list two values under one path (C63). In `Generate` the place of a node below another
  one depends on the random order of a map (C64). `GenerateNext` never changes elements of arrays, and
  loses leaves without a plain value (C65). Its patches have timestamps rounded to multiples of 256 ns,
  and cells renewed within that distance are missing (C67). `BuildFromLeafNodes` takes names in brackets
  for indices, and drops empty branches and colliding leaves (C69). `Save` leaves an empty file if a node
  has no datatype, writes random numbers below 0.0001 in a form TSON does not read, and rounds the numbers
  of a schema; `ToMapStringInterface` reads TSON with `json.Unmarshal` and fails for every data set (C70).
  `Save` of a patch does not escape names and writes values in Go syntax, so quotes and control characters
  make the file unreadable, and it panics for the patch null of a schema node without datatype (C71).
* `vssgen.Generate` reads the option "maintain_rate" (`args.go` 79), which neither `ParseArgs` nor the web
  demo gives, so it panics in every run of the program, after the old files have been deleted (C72).
  With the option, all later files and patches of a car are relative to its first file, as line 108
  declares another `data`; so the patches are no chain (C72_chain_refuted). The patch file number 1 is the
  TSON document, and with 0 files one is written.
* `patchHandler` of the web demo applies patches with a leading slash (see C19), so its documents show
  the first data set and the changes below a member with an empty name; without changes it sends "null",
  and it panics when asked for patch 1, or when a node of the schema has an integer as a name (C73).
* Over an array document `ApplyPatch` loses all growth and shrinking but that of the last operation, as
  every operation works on the old slice header (`tsonpatch.go` 142-149): appending 3 and 4 to `[1, 2]`
  gives `[1, 2, null, 4]`. `Snapshot` has the same fault across versions (`logument.go` 226-232), so its
  answer depends on the versions asked for before and differs from the current document kept by `Set`;
  `TemporalSnapshot` can give two answers for one query (C99).
* An operation below a member that is an array is not the operation on that array: "0/x" on the
  array sets x in its first element, "l/0/x" on an object with the array as member "l" puts the
  value in place of the element (C43, C100). For objects, and for elements of array documents,
  editing below a node is editing the node (C100).
* The values that `Generate` can give are known exactly: every value that fits its node can come up,
  in every combination. A node of datatype int8 or uint8 gets a number from 0 to 99 even if it has a
  list of allowed values, so int8 is never negative (C64).
* Tests of the repository that do not hold on the model (`RepoTests.v`): `TestApplyPatch` and
  `TestApplyPatchWithJson` compare with the second example, but the changes are put below a member "" (C19);
  without the leading slash both hold. `TestSimpleCaseWithLogument` expects in its comments that a value
  set twice is recorded once, but `TestSet` compares with the last snapshot (C39) and records it twice. `TestPrintWithIndex` and
  `TestLeafNodes` use data that `TestRemoveKeys` has changed before.

## Trusted base

Coq's kernel with `vm_compute`, and the correspondence between the cited Go lines and the
definitions. `Print Assumptions` is printed below each property theorem. It answers "Closed
under the global context" for all of them except `C79_range`, `C79_table`, `C79_scenarios`, `C82_experiment`, `C82_urban`, `C82_urban_zero`, `C84_reduction`, `C84_fewer`, `C84_shares`, `C84_bandwidth`, `C84_experiment`, `C89_order`, `C90_timing`, `C90_results`, `C90_experiment`, `C91_queries`, `C94_program`, `C94_urban`, `C95_saved` and `C95_then`, which use Flocq and so the
real numbers of the standard library; for these it lists exactly the standard library's axioms
`ClassicalDedekindReals.sig_not_dec`, `ClassicalDedekindReals.sig_forall_dec`,
`FunctionalExtensionality.functional_extensionality_dep` and `Classical_Prop.classic`.

Not modelled, or modelled differently:

* Outside of C57-C61 `encoding/json` is a map between trees, and strings are taken to be valid
  UTF-8. Documents hold no nil slices or nil maps, which it writes as null. In `Json.v` the text of
  a float64 and its reading are parameters, the limit of 10000 nested values is left out, and
  control characters 8 and 12 are written as newer Go releases do. `tsonpatch.FromJson` is
  `json.Marshal` followed by `Unmarshal`.
* The `Print` functions, which show Go values with the library spew, and `%v` of the data in `PrettyPrint`, a parameter.
* Some small functions have no definition of their own, as the definitions that use them do what they do:
  `getIndex` and `NewOperation` (`internal/tsonpatch/tsonpatch.go` 119-121, 427-432), `ToAny` (`internal/tson/tson.go`
  204-206), `next` and `startsWith` of the parser (`internal/tson/serialization.go` 495-499, 586-597),
  `NewTJSONDocument` (`exp/tjson.go` 33-37) and `GetData` (`internal/vssgen/extension.go` 13-15).
* `WebDemo` and `homeHandler` (`web_demo.go` 22-39, 66-70): the server, its routes and the page.
* In C102: no links, no access rights; a file name with a zero byte is one that does not exist.
* Stack exhaustion on very deep documents and memory limits.
* uint64 versions do not wrap around; array indices up to int64 only, and the memory for huge
  gaps is assumed to be there.
* The text of a float64 is a parameter (`textlib`); `GoText.v` is one instance, exact for the
  numbers used in the cases.
* `reflect.DeepEqual` has no shortcut for identical references, which matters for NaN only.
* `Operation.Value` holds nil, scalars, ints, decoded JSON containers or TSON values.
* In the CSV files the measured times are arbitrary numbers; errors when files are created or written are left out. The writer of `encoding/csv` and `fmt`'s `%.2f`, `%.4f` are modelled from their documentation and source (Go is not in /repo).
* Concurrency: the code has no locks, and calls are taken to happen one after another.
* In `internal/vssgen`: parsing of the command line, directories, errors when files are written or removed,
  and printing. Random numbers are arbitrary values that
  `math/rand` can return; a value shared between two maps is not modelled as shared.
* In the simulation: `math.Sin` is an arbitrary function and the results of `math/rand` are arbitrary (each theorem
  says what it assumes of them); the loop that redraws a string until it differs is cut off (no sensor of the
  program reaches it); products of ints do not wrap around and float64 operations are rounded one by one, as on
  amd64; measured times, progress display and the writing of files.
* Of the file system: C95 has a file in the way of a directory and a directory in the way of a file; all other errors (rights, full disks), and runs cut off halfway, are left out.
* Of the temporal experiment: paths above the directory of the scenario, measurements. In C81 and C82 the files
  are the trees written to them, read back with any order of members; C93 and C94 have them as texts. The initial file is read twice, each time
  with an order of its own. In the web demo, the
  server, its main page and starting a browser.
  Patch values there are decoded JSON (`TsonPatch.Value` may hold any Go value); `Timestamp-1` does not wrap around.
