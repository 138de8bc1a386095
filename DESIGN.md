# Formal model of webability-go/xcore (v2) in Rocq/Coq 8.16

The subject is the Go module `v2/`; parts of the root package (the obsolete version 1) are compared with it (C81-C91). Everything below is under `rocq/theories/`.

## Layout

| files | content |
|---|---|
| `GoBase.v` | byte strings, outcomes (`Ok` / `Panic` / `NoFuel`) and their monad |
| `GoStrings.v`, `GoStringsProofs.v` | `strings.Split/Join/Index/TrimSpace`, `strconv.Itoa/Atoi`, `bufio.ScanLines`, `sort.Strings` |
| `CacheModel.v`, `CacheSpec.v`, `CacheProofs*.v`, `CacheWitness.v`, `CacheProps.v` | XCache, sequential: `step : cache -> op -> cache * result` (C01-C15, C60) |
| `CacheConc*.v` | XCache, concurrent, at the granularity of critical sections, entries behind pointers, maps replaced by Flush, assignments of Maxitems and Expire (C16-C18, C76, C77) |
| `SkelModel.v`, `SkelProofs.v`, `Skeletons.v`, `SkelInst.v`, `SkelProps.v` | lock skeletons of every method, interleaved instruction by instruction: races, re-entrance, deadlock (C19, C61-C65) |
| `LockModel.v`, `LockProofs.v`, `LockInst*.v`, `LockProps.v` | methods as critical sections under a RWMutex, action by action: linearizability, panics (C36-C38, C66) |
| `CacheLock.v`, `CacheLockProofs.v`, `CacheLockProps.v` | the critical sections of XCache action by action: atomicity (links CacheConc.v to the lock), panics (C36, C38) |
| `ExecSkel.v`, `ExecSkelProofs.v`, `ExecSkelProps.v` | skeletons of the template methods: races on the template tree and on the data (C80) |
| `TextSpec.v`, `TextProofs.v`, `TextProps.v` | what String and GoString print, as a relation on the data (C78, C79) |
| `DatasetModel.v`, `DatasetSpec.v`, `DatasetProofs*.v`, `FloatProofs.v`, `DatasetProps.v` | XDataset, XDatasetTS, XDatasetCollection(TS) over an explicit heap (C20-C35, C71, C75) |
| `AliasModel.v`, `AliasProofs.v`, `AliasProps.v` | backing arrays of the slices stored in datasets (C74) |
| `BuildSpec.v`, `BuildProofs.v`, `BuildProps.v` | the heaps that sequences of calls build: well formed, no dangling reference (C73) |
| `LangModel.v`, `LangSpec.v`, `LangProofs*.v`, `LangProps.v` | XLanguage (C39-C42, C69) |
| `FileModel.v`, `FileProofs.v`, `FileProps.v` | the loaders and constructors from files (C70) |
| `XmlModel.v`, `XmlSpec.v`, `XmlProofs*.v`, `XmlProps.v` | encoding/xml reader, GetXML / LoadXMLString (C43, C44) |
| `Regex.v`, `RegexSyntax.v`, `RegexProofs.v`, `TemplateModel.v`, `TemplateSpec.v`, `TemplateProofs*.v`, `TemplateProps.v` | the regular expression of `compile`, scanner, boxes, lookup (C45-C51) |
| `AddProofs.v`, `AddProps.v` | AddTemplate (C51, C67, C68) |
| `PrintModel.v`, `PrintProofs.v`, `PrintProps.v` | String and GoString of a template (C72) |
| `RenderSpec.v`, `RenderProofs*.v`, `RenderProps.v` | `Execute`, `Clone` of templates (C52-C59) |
| `V1Cache.v`, `V1CacheProofs.v`, `V1Props.v`, `V1Skel.v`, `V1SkelProps.v` | the cache of the root package (version 1) against the one of v2 (C81), its lock discipline (C82) |
| `V1Lang*.v`, `V1Dataset*.v`, `V1DataProps.v` | the language and the typed reads of the root package against v2 (C83, C84) |
| `V1Template.v`, `V1TemplateSpec.v`, `V1TemplateProofs*.v`, `V1TemplateProps.v` | the template of the root package: scanner, boxes, Execute, comparison with v2 (C85-C91) |
| `SameSpec.v`, `SameProofs*.v`, `SameProps.v` | executions on data with the same content at other addresses, and on clones (C92) |
| `DocProofs.v`, `DocProps.v` | what the documentation says about the metalanguage, against the semantics of executions (C93) |
| `FlatSpec.v`, `FlatProofs.v`, `FlatProps.v` | flat language texts put together, line ends, order of the lines (C94) |
| `XmlDocSpec.v`, `XmlDocProofs*.v`, `XmlDocProps.v` | grammar of XML language documents and their loading (C95) |
| `SliceModel.v`, `SliceSpec.v`, `SliceProofs*.v`, `SliceProps.v` | slices as views of arrays: collections and recency list (C96) |
| `ZeroModel.v`, `ZeroSpec.v`, `ZeroProofs.v`, `ZeroProps.v` | &XLanguage{} and &XCache{}: nil maps and the lock after a panic (C97) |
| `WrapModel.v`, `WrapProofs.v`, `WrapProps.v` | the cache with 64 bit multiplication (C98) |
| `PlainSpec.v`, `PlainProofs.v`, `PlainProps.v` | texts of plain values (C99) |
| `NilModel.v`, `NilSpec.v`, `NilProofs.v`, `NilProofs2.v`, `NilProps.v` | datasets with a nil map: stores, locks after a panic, execution (C100) |
| `RecentSpec.v`, `RecentProofs.v`, `RecentProps.v` | how long an entry is safe from eviction (C101) |
| `HoleSpec.v`, `HoleProofs*.v`, `HoleProps.v` | executions as a text with holes for the fields that are only printed (C102) |
| `RaceSpec.v`, `RaceProofs.v`, `RaceWitness.v`, `RaceProps.v` | the limit of the cache when Gets are overtaken by other calls (C103) |
| `PathSpec.v`, `PathProofs.v`, `PathProofs2.v`, `PathProps.v` | reading and writing through paths (C104) |
| `WriteSpec.v`, `WriteProofs.v`, `WriteProps.v` | templates written by a program are read back; any text can be produced (C105) |
| `LangConc.v`, `LangConcSpec.v`, `LangConcProofs.v`, `LangConcWitness.v`, `LangConcProps.v` | languages loaded and read by several goroutines (C106) |
| `CrashSpec.v`, `CrashProofs.v`, `CrashProofs2.v`, `CrashProps.v` | C107: executions with data that panic |
| `ShrinkProofs.v`, `ShrinkProps.v` | C108: Maxitems changed while the cache is in use |
| `ReentModel.v`, `ReentSpec.v`, `ReentProofs.v`, `ReentProps.v` | C109, C110: validators that call the cache |
| `LawsSpec.v`, `LawsProofs.v`, `LawsProps.v` | C111: rewriting templates |
| `ParModel.v`, `ParSpec.v`, `ParProofs.v`, `ParProofs2.v`, `ParProofs3.v`, `ParProofs4.v`, `ParProofs5.v`, `ParProps.v` | C112: executions at the same time |
| `SettingsSpec.v`, `SettingsProofs.v`, `SettingsProps.v`, `VerifyProofs.v`, `VerifyProps.v` | settings of a cache assigned while other goroutines use it; Verify while others use the cache (C113, C114) |
| `NestSpec.v`, `NestProofs.v`, `NestProofs2.v`, `NestProps.v` | validators that call the cache, whatever they do, in the concurrent model (C115) |
| `MeanSpec.v`, `MeanProofs.v`, `MeanProofs2.v`, `MeanProofs3.v`, `MeanProofs4.v`, `MeanProps.v` | C116: executions while other goroutines change the data |
| `CopyModel.v`, `CopySpec.v`, `CopyProofs.v`, `CopyProofs2.v`, `CopyProofs3.v`, `CopyProofs4.v`, `CopyProofs5.v`, `CopyProps.v` | C117: Clone divided into its accesses; templates cloned while others execute, clone or look them up |
| `EditModel.v`, `EditSpec.v`, `EditProofs.v`, `EditProofs2.v`, `EditProofs3.v`, `EditProofs4.v`, `EditProofs5.v`, `EditProps.v` | C118: LoadString and AddTemplate divided into their accesses; templates loaded and extended while others use them |
| `GrowSpec.v`, `GrowProofs.v`, `GrowProofs2.v`, `GrowProofs3.v`, `GrowProps.v` | executions while other goroutines set fields and push elements (C119) |
| `TransSpec.v`, `TransProofs.v`, `TransProps.v` | executions in all languages at once (C120) |
| `SpeakModel.v`, `SpeakSpec.v`, `SpeakProofs.v`, `SpeakProofs2.v`, `SpeakProofs3.v`, `SpeakProofs4.v`, `SpeakProps.v` | executions while the languages change (C121) |
| `SnapModel.v`, `SnapSpec.v`, `SnapProofs.v`, `SnapProofs2.v`, `SnapProps.v` | Clone while other goroutines change the data (C122) |
| `TellModel.v`, `TellSpec.v`, `TellProofs.v`, `TellProofs2.v`, `TellProps.v` | String and GoString while other goroutines change the data (C123) |
| `WaitModel.v`, `WaitSpec.v`, `WaitProofs.v`, `WaitProofs2.v`, `WaitProofs3.v`, `WaitProofs4.v`, `WaitProps.v` | the methods with the locks of all objects they go through; waiting for each other (C124) |
| `PeekSpec.v`, `PeekProofs.v`, `PeekProofs2.v`, `PeekProofs3.v`, `PeekProps.v` | what goroutines read through nested thread safe data (C125) |
| `WalkModel.v`, `WalkSpec.v`, `WalkProofs.v`, `WalkProofs2.v`, `WalkProps.v` | Clone of a thread safe collection over an array that others write (C126) |
| `ServeModel.v`, `ServeSpec.v`, `ServeProofs.v`, `ServeProofs2.v`, `ServeProofs3.v`, `ServeProps.v` | Execute with the locks of the data it goes through; goroutines that execute templates and wait (C127) |
| `SizeSpec.v`, `SizeProofs.v`, `SizeProofs2.v`, `SizeProofs3.v`, `SizeProps.v` | How long a page can get; small texts with long pages (C128) |
| `KindSpec.v`, `KindProofs.v`, `KindProofs2.v`, `KindProofs3.v`, `KindProofs4.v`, `KindProps.v` | Plain data and thread safe data with the same content: the same texts (C129) |
| `DemandSpec.v`, `DemandProofs.v`, `DemandProofs2.v`, `DemandProps.v` | Loading on demand through the cache: which requests load, caches of different sizes (C130) |
| `CrowdSpec.v`, `CrowdProofs.v`, `CrowdProofs2.v`, `CrowdProofs3.v`, `CrowdProps.v` | Several clients that load on demand: values, how often a key is loaded (C131) |
| `AgeSpec.v`, `AgeProofs.v`, `AgeProofs2.v`, `AgeProps.v` | How old the values of concurrent Gets are (C132): the specification speaks of the actions of an execution (Sets that have taken their step, clock readings of the Get); invariant over executions |
| `TestsCache.v`, `TestsLang.v`, `TestsDataset.v`, `TestsTemplate.v` | the repository's own tests replayed on the models (conformance of the models, not properties) |

`*Model.v` follow the Go code function by function, with file and lines. `*Spec.v` hold the vocabulary of the statements:
they describe what is expected without calling the functions whose result they describe. `*Props.v` hold only the property
theorems (each `exact lemma`), `Print Assumptions`, and concrete cases (`Example`).
A theorem whose name ends in `_refuted` proves that the code violates the expectation of the property.

## Conventions

* Go strings are byte lists (`list ascii`); Go maps are `gmap`; slices are lists (justified for collections and the recency list by C96); pointers are heap locations (`positive`).
* `panic` and non termination (stack overflow / deadlock) are explicit outcomes. Recursive functions that follow pointers take
  fuel and answer `NoFuel`, which is never a normal result.
* `time.Now()`, the validator function, addresses of new objects and map iteration orders are inputs, quantified universally.
* Integers are `Z`; wrap-around is written where Go would wrap (`int(uint64)`), elsewhere lengths cannot overflow. The one product of the cache
  (entries times percentage) is unbounded in `CacheModel.v`; C98 says when this agrees with 64 bit integers. Instants are integers too: adding a
  `Duration` (at most 292 years) to a clock reading cannot overflow a `time.Time`.
* Floats are `SpecFloat.spec_float` of the standard library (no axioms).

## Trusted base

1. Coq's kernel (8.16.1) and the statements in `*Props.v` with the definitions they mention (`*Model.v`, `*Spec.v`).
2. Axioms: `Print Assumptions` answers "Closed under the global context" for every property theorem. The development adds no
   axiom, parameter, functor or module type. (A listing of the loaded libraries also shows the seven fields
   `Coq.ssr.ssrunder.Under_rel.*`: they belong to a module type of the standard library that std++ loads, and no theorem uses them.)
3. Libraries: Coq's standard library and std++ (`gmap`, `gset`, lists, `merge_sort`).
4. The reading of the Go code in the `*Model.v` files. It is by hand; nothing was extracted or run. What the models leave out is
   listed below. As a check of the reading, `Tests*.v` run the inputs of the repository's test files (`v2/*_test.go`, with the files
   of `v2/testunit` byte for byte) on the models and compare with the outputs the tests expect; all agree.
5. What is assumed of Go's libraries:
   * `strings`, `strconv`, `sort`, `bufio.Scanner` with ScanLines (64 KiB limit), `sync.RWMutex` (a waiting writer keeps new
     readers out), maps, slices, `append`: modelled as documented.
   * `regexp`: the text of the pattern is in `RegexSyntax.v` as the code builds it; a parser of the syntax it uses gives the AST
     that the model runs (theorem `C45_pattern`). Assumed: that parser, and the leftmost-first semantics of
     `FindAllStringSubmatchIndex` in `Regex.v`.
   * the operating system (`FileModel.v`): opening, reading and closing a path answer what an arbitrary oracle says.
   * `encoding/xml`: `XmlModel.v` follows `Decoder.text`, `rawToken` and `unmarshal` for the structures of LoadXMLString;
     theorems hold for every decoder that agrees with it (`faithful`); XML declarations with UTF-8 and comments are read; documents with other processing
     instructions, directives, namespaces, non ASCII names are outside (`XOther`), and nothing is claimed for them.
   * `fmt`: texts of floats, times and opaque values with `%v`, of plain values with `%#v`, and `int` of a float out of range are
     fields of the record `golib`; `quote` is `%#v` of a string. The theorems hold for every such record.
   * `golang.org/x/text/language.Parse` followed by printing is the function parameter `parse_tag`.

## What is modelled and what is not

| file | modelled | not modelled |
|---|---|---|
| `v2/xcache.go` | every method; sequential, critical-section and skeleton level | logging; in Get, a Validator set to nil or from nil by another goroutine between the test (line 136) and the call (line 137) counts as a panic or as the old function; a Verify that finds the field nil at its test and whose field is set later is the one without validator |
| `v2/xdataset.go` | everything: NewXDataset, String, GoString, Set, Get, all typed getters, Del, Clone | typed nil pointers, other implementations of the interfaces (nil maps of `new(XDataset)`: in NilModel.v for Set, Del, Get with a simple key, Clone and Execute; slices stored as values are backed by arrays only in AliasModel.v) |
| `v2/xdatasetts.go` | everything; locks in LockInst.v and Skeletons.v, data in DatasetModel.v; Clone, String and GoString by several goroutines in SnapModel.v and TellModel.v; nested locks in WaitModel.v | |
| `v2/xdatasetcollection.go`, `v2/xdatasetcollectionts.go` | everything | aliasing of slices copied out by the user (`*d`; only in SliceModel.v), nil receivers; a Clone that reads the words of a slice at different moments (cells overwritten while a Clone reads them: WalkModel.v) |
| `v2/xlanguage.go` | (several goroutines: LangConc.v) Set, Get, SetStatus, GetStatus, Del, GetEntries, SetName, SetLanguage, GetName, GetLanguage, LoadString, LoadXMLString, GetXML, String, GoString, the constructors from strings; the file variants in FileModel.v | |
| `v2/xtemplate.go` | NewXTemplate(FromString), LoadString, compile, AddTemplate, GetTemplate, Execute, injector, Clone; String and GoString in PrintModel.v; the file variants in FileModel.v; Execute by several goroutines in ParModel.v (one method call of a dataset or collection is one access); Execute while languages change in SpeakModel.v; Execute with the locks of the data in ServeModel.v; Clone, Execute and GetTemplate by several goroutines in CopyModel.v, LoadString and AddTemplate in EditModel.v (one access to a field of a template) | the runtime's stop of a program that reads and writes a map at the same time; the accesses inside one print or dump during Execute (String on its own: TellModel.v) |
| `v2/interfaces.go`, `v2/xcore.go` | the interfaces are the four implementations | documentation only |
| root package (v1) | `xcache.go`; `xlanguage.go`; `xtemplate.go` (FromFile and LoadFile are those of v2, not modelled again); of `xdataset.go` the functions whose text differs from v2 | assignments to the exported field `Entries`; the functions of `xdataset.go` whose text is that of v2 (compared function by function) are not modelled again |

Sequential models describe one thread using an object; concurrent use is covered by CacheConc (critical sections, cache), LockModel
(linearizability of the one-section methods) and the skeletons (every interleaving of the lock operations and accesses).
The skeletons keep only lock operations and shared accesses, with free choice for data dependent control flow.

## Plan per property

C01-C15, C60 (cache, sequential): specification = functions of the history only (last Set, last use) and an abstract expiring map.
Invariants over all reachable states: "every stored key is in the recency list" (always) and "recency list = stored keys ordered by
last use, without duplicates" (no Flush, Expire=0). C07, C11, C14, C60 are refutations by computed witnesses plus a parametric unbounded
witness for C07.

C16-C18 (cache, concurrent): small-step system, a thread inside `Get` is in one of the states looked-up / decided; invariants by
induction over the schedule; refutations by explicit schedules. C17 also in terms of the history alone (order of the first steps).
C76, C77: refinement of an atomic map (every interleaving) and of the sequential model (calls that do not overlap).

C19, C61-C65: skeletons. Race freedom from a typing of paths (every access inside the right section), no self blocking, progress by an
invariant on the lock state; the violations are computed schedules.

C20-C26 (dataset reads): path resolution given separately as an inductive relation; conversions against mathematical integers and
`SpecFloat` (the error of rounding is bounded in FloatProofs.v).

C27-C31 (Clone, NewXDataset): heap simulation relation; freshness; frame lemma; NoFuel for all fuel on a cycle.

C32: all orders = all permutations; sorted permutations are unique.

C33-C35 (collections): refinement to lists.

C36-C38, C66: generic theorem over action-level threads with an RWMutex; instantiated for the three wrappers and
for the critical sections of the cache.

C39-C44 (language): map machine; line scanner against a relation on lines; XML: `GetXML` exactly, the reader as above.

C45-C51 (compile): the regular expression is an AST interpreted by a backtracking leftmost-first matcher; the scanner used in
the proofs is proved equal to it. Second pass modelled with its explicit stacks, proved equal to a recursive tree.

C52-C59 (execute, clone): `injector` over template heap and data heap with fuel; specification is a separate inductive semantics
(`RenderSpec.renders`), deterministic, equivalent to the code in both directions.

C67, C68 (AddTemplate): chains of fathers as a relation; the lookup is endless iff the chain has no end and no template on it has the name.

C69, C70 (loaders): frame of an overlay; the file variants are the string variants after the oracle of the operating system.

C80: a call's remaining instructions are always the end of a path of its method, so a race needs a writer and another accessor of the same variable. C71, C75: exact types of the getters that do not convert. C72: permutation and witnesses. C78, C79: the printed text is an inductive relation; C79 is proved equivalent to the recursive function in both directions, by induction on fuel and on the relation.

C73: `built` = reflexive-transitive closure of the calls from the empty heap; invariant "every reference points to an object of the
right sort, wrappers have a rank". C74: a value that is not a reference is the same in the clone, so a slice header is shared.

C81, C83: simulation between the two versions. C82: skeletons. C84: the getters differ only in the conversion. C83 assumes of
`encoding/xml` that a structure without the status attribute receives the same other fields.

C85-C91 (v1 template): as C45-C57, with panics as results of the semantics (an element of a collection may be nil, a loop may meet a
value that is no collection). Termination by the age of the templates: a sub template is younger than its holder. C90 by mutual
induction on both semantics.

C92: `alike R h h'` is a relation on addresses under which two heaps have the same content; the semantics of executions is simulated
along it. Writing a counter keeps the relation only if it is one to one, hence the two cases. A clone and its original are related by
the ways (keys, indices) that lead to an object; what Clone builds is a tree by induction on the recursion.

C93: consequences of the semantics of C52-C59, and concrete templates. C94: splitting at line feeds distributes over a joined text; the table after a
load is decided by the last line that names each entry. C95: `document n s d` is a grammar of the texts with their meaning; each of its
constructions is shown to be consumed by the reader with the right effect (mutual induction over content, markup and elements). Rejection: the reader never
looks past the point where it succeeds, so a text that can be continued to a rejected one is rejected.

C96: `shows m s xs` says that a slice lies in its array and shows a list; every operation changes at most the array of its own slice or
makes a new one, and different variables have different arrays.
C97: the state "both maps nil" is an invariant of the language, "map nil and recency list empty" of the cache until Flush.
C98: the number of entries is at most the number of calls, so the product stays below the bound and both models take the same steps.
C99: decimal notation is unique by induction on the digits from the right.
C100: the execution with nil maps and the one with empty maps are related call by call: either the heap still has its nil maps empty and the results agree, or a nil map was stored into, which shows in every later heap.
C101: the entries behind a key in the recency list were all used after it (C60), and an eviction that reaches the key leaves at most a tenth less than the limit behind it.
C102: every lookup has an origin (a field of a dataset, an element of a collection, or none) that is the same for all contents of the free fields; by induction on the semantics of executions the text is a list of literals and holes.
C103: potential argument: the length of the recency list minus the number of entries is at most the number of disturbed Gets that are over; a Set at the limit drops at least one element of the list. The number of disturbed Gets is counted on the schedule alone (RaceSpec). The violations are schedules built for every size by induction.
C104: a walk is an independent description of the way a path takes; composition and frame by induction on it.
C105: marks have distinct first characters and no element has its mark's character in third place, so no element starts inside a text without marks.
C106: invariants over every schedule of critical sections: which steps of the loads in progress still write the entry; the documents loaded so far.
C107: the relation of C52 is completed by one for panics (what is rendered before, then a call, an element of a loop, or a nil element); both directions by induction on the fuel and on the relation.
C108: the bound max(limit - 1, 18, old - n) by induction on the history, with the invariant of the recency list (CacheProofs2.v); the violation by induction on the number of Sets.
C109, C110: a validator is a program of calls; Get with fuel for the Gets inside validators; invariants by induction on the fuel and on the program. Verify: what is left only shrinks, induction on the order of the walk.
C111: trees that say the same (`alike`: words without comments, and by name alike boxes) give templates whose lookups answer related boxes (`twin`), so the simulation of TemplateProofs6 applies with different relations for looking up and for what is found; concatenation by splitting the parameter list, the scope is restored in between; inlining relates the box to the top template, one unit of fuel apart.
C112: adequacy of the access-by-access model; a goroutine whose accesses cannot tell apart the heaps the others make, by an invariant (heaps equal but for counters) and an induction on the steps.
C113, C114: every step of a Get or a Verify carries a fact about a moment since its begin (stored entry, reading of Expire, clock);
  the facts are kept by every action of every thread. The set of keys the loop of Verify has not visited yet is bounded below by
  the entries that stay in place.
* C115 (validators in the concurrent model): the calls a validator makes are calls of the next thread, made while the thread that asked stands still; the theorems about executions (C16, C17, C113, C114) then hold for them, and the questions are matched with the runs of the validator.
* C116: a course of goroutines is a function from moments to heaps; a goroutine that returns has made its accesses at increasing moments (`during`), from which the relation of RenderSpec.v with a moment for each look follows by the proof of RenderProofs2.v; where the data seen do not change the relation collapses to that of RenderSpec.v. Violations by computed schedules.
* C117: an invariant that says of every template which original it is a version of and who is still building it (`CopyProofs.v`); separation-style rule `safe` for one goroutine against any others; at the end `mirrors` of C58.
* C118: LoadString, AddTemplate, Clone, GetTemplate and Execute as accesses to fields; no panic by an invariant with ownership of the clones that are being made; a text without boxes is replaced at once (the accesses of an execution are compared with those of the same execution alone, on the templates with the Root it followed); computed schedules for the three violations.
* C119: an invariant (elements are datasets, no nil elements) and an order of growth on heaps; a rule for programs of accesses that holds against every growth; the loop by induction on the relation of C116. The endless loop is a schedule built by induction on the number of elements.
* C120: families of results indexed by the language; every construct of the executor maps families that are one page to such families, by induction on the fuel.
* C121: the executor as a tree of questions to languages; a rule that gives one page for a tree whatever is answered, by induction on the fuel as for C120; a course of the goroutines is a run of each tree against the history of the languages.
* C122: Clone as a sequence of looks at single objects that returns a tree; the tree is related to the heap by unfolding, to the sequential Clone by the bisimulation of C27, and to a course of moments by induction on the depth; no panic by an invariant that every reference leads somewhere.
* C123: as C122, with the text of a tree; a print that cannot fail has nothing to recover from, so the recovered texts of fmt drop out.
* C124: programs with lock operations; the locks held and wanted have falling ranks as long as the data have, so chains of waiting fall as well; programs are finite, so runs end. The methods without the locks are shown equal to those of DatasetModel.v. The deadlocks are computed.
* C125: invariant on the held locks (writes to the inside of a wrapper only under its write lock, locks exclude each other); forward simulation: a Get under way stands for a set of possible answers, each of them the answer at some earlier moment.
* C126: invariant on the array of the slice that Clone has taken: either the collection still uses it (then only a Push behind its end writes, and the end has moved by the Pops and Pushes) or nobody will ever write it again.
* C127 Execute is written once more over the programs with lock operations of C124. A property of programs that the methods have and that sequencing keeps holds of every execution (`closed_execute`): with `tidy` it gives the absence of circles, with the predicate that all writes keep the ranks and the kinds of the objects it gives the version where only the data before matter. The lock of a language is left out: XLanguage.Get is one section that calls nothing.
* C128 (SizeProps): the bound by induction over the rendering relation of RenderSpec with the rank of the template; the lower bound by building a tower of boxes with the writer of C105 and executing it by induction over the boxes.
* C129 (KindProps): the simulation of C92 with datasets seen through any number of wrappers, by induction over the rendering relation of RenderSpec; printing by induction over the fuel.
* C130 (DemandProps): the recency list is the list of the latest keys, cut at a length that depends on the number of loads; by induction over the requests.
* C131 (CrowdProps): invariant over the interleavings, with the labels so far; values through C17.
* C132: invariant over executions with a ghost owner (the key) of every entry in the heap; what a Get has passed is a fact about its own clock readings.

## Wrong programs

`seeded/LOG.jsonl` records, for each deliberate error put into a model file, which property it breaks and which theorems stopped
proving. A theorem that survived an edit falsifying its claim was tightened.
