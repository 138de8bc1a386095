{"id": "C01", "title": "A cache hit is the latest Set value", "statement": "When Get(k) returns (d,false) for a key that is in the cache, d is the value of the most recent Set on k in the history, and no Del(k), no Flush, and no Get(k) answering (nil,true) happened after that Set. The cache never returns an older value, nor a value stored under another key.", "quantifier": "every finite history of cache operations (Set, SetTTL, Get, Del, Count, Clean, Verify, Flush, changes of Maxitems/Expire), every clock reading taken by every operation, every validator answer, every key and value", "why_tests_cant": "a test fixes one history and one clock; the claim ranges over all of them", "anchors": ["v2/xcache.go:Set", "v2/xcache.go:Get", "v2/xcache.go:Del", "v2/xcache.go:Flush"]}
{"id": "C02", "title": "Without eviction the cache is an expiring map", "statement": "If Maxitems is never positive and Clean is only called with -100 <= perc <= 0, every output of every history is exactly that of a plain map from key to (creation time, ttl, value) with the documented expiry rules; the recency bookkeeping is unobservable. In particular a value that was Set and neither deleted, flushed, expired nor rejected is always returned.", "quantifier": "every finite history of cache operations (Set, SetTTL, Get, Del, Count, Clean, Verify, Flush, changes of Maxitems/Expire), every clock reading taken by every operation, every validator answer, every key and value", "why_tests_cant": "a test fixes one history and one clock; the claim ranges over all of them", "anchors": ["v2/xcache.go:Set", "v2/xcache.go:Get", "v2/xcache.go:Clean", "v2/xcache.go:Verify"]}
{"id": "C03", "title": "Exact expiry decision of Get", "statement": "Get on a present key answers (nil,true) and removes the key if and only if its TTL is non zero and ctime+ttl is before the first clock reading, or the validator rejects (key,ctime), or Expire is non zero and ctime+Expire is before the second clock reading; otherwise it answers (data,false) and keeps the entry. On an absent key it answers (nil,false) and changes nothing.", "quantifier": "every cache state, key, clock readings and validator", "why_tests_cant": "the boundary depends on every combination of ttl, Expire, clock and validator", "anchors": ["v2/xcache.go:Get"]}
{"id": "C04", "title": "Set renews an entry completely", "statement": "After Set(k,d) every trace of the previous entry of k is gone: creation time is the time of the Set, the TTL is cleared, the value is d. SetTTL only changes the TTL of an existing key and does nothing to an absent one.", "quantifier": "every reachable cache state and key", "why_tests_cant": "a test fixes one history and one clock; the claim ranges over all of them", "anchors": ["v2/xcache.go:Set", "v2/xcache.go:SetTTL"]}
{"id": "C05", "title": "Clean evicts exactly the least recently used share", "statement": "In every history without Flush and with Expire never set, Clean(p) for 0<=p<=100 removes exactly floor(n*p/100) of the n entries, returns that number, and every evicted entry was last used (Set or successful Get) before every entry that is kept.", "quantifier": "every finite history of cache operations (Set, SetTTL, Get, Del, Count, Clean, Verify, Flush, changes of Maxitems/Expire), every clock reading taken by every operation, every validator answer, every key and value, restricted to histories without Flush and with Expire = 0", "why_tests_cant": "LRU order is a property of the whole history", "anchors": ["v2/xcache.go:mClean", "v2/xcache.go:removeFromPile", "v2/xcache.go:Get", "v2/xcache.go:Set"]}
{"id": "C06", "title": "Maxitems bounds the number of entries", "statement": "In every history without Flush and with Expire never set, on a cache created with Maxitems = M > 0, Count never exceeds max(M-1, 9); in particular it stays below M as soon as M >= 10.", "quantifier": "every finite history of cache operations (Set, SetTTL, Get, Del, Count, Clean, Verify, Flush, changes of Maxitems/Expire), every clock reading taken by every operation, every validator answer, every key and value, restricted to histories without Flush and with Expire = 0", "why_tests_cant": "a test fixes one history and one clock; the claim ranges over all of them", "anchors": ["v2/xcache.go:Set", "v2/xcache.go:mClean"]}
{"id": "C07", "title": "Maxitems is not respected for small caches, after Flush, or with Expire", "statement": "The documented promise 'maxitems is the max authorized quantity of objects' is violated by the code: there are histories in which Count exceeds Maxitems (a) for Maxitems < 10 because 10 percent rounds down to zero, (b) for Maxitems >= 10 after a Flush, because Flush does not reset the recency list, and (c) with Expire set, because expired keys stay in the recency list. After repeated Flush the excess is unbounded.", "quantifier": "existence of a history, and for every bound N a history exceeding Maxitems by N", "why_tests_cant": "finding the violating history needs reasoning about hidden state", "anchors": ["v2/xcache.go:Set", "v2/xcache.go:mClean", "v2/xcache.go:Flush"]}
{"id": "C08", "title": "No cache operation panics", "statement": "For every history, as long as Clean is called with -100 <= perc <= 100, no operation panics: the eviction loop never indexes outside of the recency list. With perc > 100 the loop can panic; so it can for hugely negative perc, where the product overflows (C98).", "quantifier": "every finite history of cache operations (Set, SetTTL, Get, Del, Count, Clean, Verify, Flush, changes of Maxitems/Expire), every clock reading taken by every operation, every validator answer, every key and value", "why_tests_cant": "needs an invariant relating two hidden structures over all histories", "anchors": ["v2/xcache.go:mClean"]}
{"id": "C09", "title": "Clean removes every expired entry and never a fresh one beyond its quota", "statement": "After Clean(p) no entry remains whose ctime+Expire is before the clock reading taken for it. Every entry that disappears was either expired or among the first floor(n*p/100) positions of the recency order, where n is the number of non expired entries; all other entries are unchanged. Clean(0) removes expired entries only.", "quantifier": "every reachable cache state, every p between -100 and 100, every clock reading per entry", "why_tests_cant": "a test fixes one history and one clock; the claim ranges over all of them", "anchors": ["v2/xcache.go:mClean", "v2/xcache.go:Clean"]}
{"id": "C10", "title": "Verify keeps exactly the valid entries", "statement": "After Verify, the remaining entries are exactly those that are not expired and that the validator accepts, unchanged; when nothing is expired the returned number is the number of entries removed; the order in which the map is iterated does not matter.", "quantifier": "every reachable cache state, validator, clock and map iteration order", "why_tests_cant": "Go randomises map iteration order", "anchors": ["v2/xcache.go:Verify"]}
{"id": "C11", "title": "Clean and Verify misreport the number of removed entries", "statement": "The documentation says both return the quantity of removed entries. With Expire set, the number of expired entries removed is never part of the result (Verify can return 0 having emptied the cache), and Clean can return a number greater than what it removed.", "quantifier": "existence of a history", "why_tests_cant": "hidden state", "anchors": ["v2/xcache.go:mClean", "v2/xcache.go:Verify"]}
{"id": "C12", "title": "TTL-expired entries survive Clean and Verify", "statement": "The documentation says Clean deletes expired entries. Entries expired by their own TTL (SetTTL) are not removed by Clean(0) nor by Verify without validator, for any cache and any clock; they only disappear by Get.", "quantifier": "every cache state and clock", "why_tests_cant": "a test fixes one history and one clock; the claim ranges over all of them", "anchors": ["v2/xcache.go:mClean", "v2/xcache.go:SetTTL"]}
{"id": "C13", "title": "Flush empties the cache", "statement": "After Flush, Count is 0 and every Get answers (nil,false) until a new Set of that key.", "quantifier": "every reachable state, every continuation of the history without Set of the key", "why_tests_cant": "a test fixes one history and one clock; the claim ranges over all of them", "anchors": ["v2/xcache.go:Flush"]}
{"id": "C14", "title": "Flush breaks the eviction order", "statement": "After a Flush, eviction is no longer least-recently-used: there is a history where Clean evicts the most recently used entry and keeps an older one, and one where Clean(p) evicts nothing although floor(n*p/100) > 0.", "quantifier": "existence of a history", "why_tests_cant": "hidden state", "anchors": ["v2/xcache.go:Flush", "v2/xcache.go:mClean"]}
{"id": "C15", "title": "Operations on one key do not disturb other keys", "statement": "SetTTL, Get and Del on key a, and Set on key a when it does not trigger a cleaning, leave the entry of every other key b exactly as it was.", "quantifier": "every cache state, keys a<>b", "why_tests_cant": "a test fixes one history and one clock; the claim ranges over all of them", "anchors": ["v2/xcache.go:Set", "v2/xcache.go:Get", "v2/xcache.go:Del", "v2/xcache.go:SetTTL"]}
{"id": "C16", "title": "Concurrent cache calls never corrupt the cache", "statement": "Under any interleaving of the critical sections of any number of threads calling Set, SetTTL, Get, Del, Count, Clean(<=100), Verify and Flush and assigning Maxitems and Expire, also in the middle of calls, no eviction loop ever indexes outside the recency list and every stored key stays evictable (is in the recency list). Validators may answer anything, call the cache or panic, and the field Validator may be reassigned: a call panics only if its own validator panicked or the field had been set to nil.", "quantifier": "every number of threads, every program of calls per thread, every interleaving of the critical sections", "why_tests_cant": "tests run a handful of schedules out of unboundedly many", "anchors": ["v2/xcache.go:Get", "v2/xcache.go:mGet", "v2/xcache.go:Set", "v2/xcache.go:Del", "v2/xcache.go:mClean"]}
{"id": "C17", "title": "A concurrent hit returns a value that was current during the call", "statement": "Under any interleaving, whatever is assigned to Maxitems and Expire meanwhile, when Get(k) returns (d,false) for a present key, d was the value stored under k at the instant the call looked the key up, that is between its invocation and its response.", "quantifier": "every number of threads, every program of calls per thread, every interleaving of the critical sections", "why_tests_cant": "tests run a handful of schedules out of unboundedly many", "anchors": ["v2/xcache.go:Get", "v2/xcache.go:mGet"]}
{"id": "C18", "title": "A stale invalidation can delete a fresh entry", "statement": "There is an interleaving in which Get(k) sees an expired entry, another thread completes Set(k,fresh), and the first Get then deletes the fresh entry, so that a later Get(k) misses although nothing deleted or expired it; likewise Verify can delete an entry that its validator accepts, stored after the validator rejected the previous one, and a Verify that began before a Flush goes on over the entries of before: it asks the validator about the old entry of k after Flush and Set(k,fresh) have returned, and deletes the fresh one, which the validator accepts; also an interleaving of Get(k) and Del(k) leaving a key in the recency list that is not stored.", "quantifier": "existence of a schedule", "why_tests_cant": "needs an exact preemption point", "anchors": ["v2/xcache.go:Get", "v2/xcache.go:Verify", "v2/xcache.go:Del"]}
{"id": "C19", "title": "Lock discipline of the cache, and Verify's violation of it", "statement": "In every reachable state of any number of threads running the cache methods other than Verify, two threads are never simultaneously at accesses to the item map or the recency list of which one is a write, and no method ever blocks on a lock it already holds. Verify iterates the item map without the lock: there is a schedule where it is reading the map while another thread writes it.", "quantifier": "every number of threads, every program of calls per thread, every interleaving of the critical sections", "why_tests_cant": "data races depend on the schedule", "anchors": ["v2/xcache.go:Verify", "v2/xcache.go:Set", "v2/xcache.go:Get"]}
{"id": "C20", "title": "Path access resolves step by step", "statement": "Get(path) on a dataset follows the path a>b>c: a segment naming a sub-dataset descends into it, a segment naming a collection consumes the next segment as a decimal index (absent, malformed or out of range index: not found), the last segment is looked up in the dataset reached; it reports not found in every other case except that a path whose first segment names a plain value is looked up as a literal key.", "quantifier": "every dataset graph (including shared and cyclic ones) and every path string", "why_tests_cant": "unbounded nesting and arbitrary strings", "anchors": ["v2/xdataset.go:XDataset.Get", "v2/xdatasetcollection.go:Get"]}
{"id": "C21", "title": "Set, Get and Del obey the map laws", "statement": "For keys without '>': Get(k) after Set(k,v) returns (v,true); Get(k) after Del(k) returns (nil,false); Set and Del of k leave Get of every other such key unchanged. Deleting twice is the same as once; the last Set wins.", "quantifier": "every dataset state, every key without '>', every value", "why_tests_cant": "a test fixes one history and one clock; the claim ranges over all of them", "anchors": ["v2/xdataset.go:Set", "v2/xdataset.go:Get", "v2/xdataset.go:Del"]}
{"id": "C22", "title": "A key containing '>' can be stored but not read back", "statement": "The interface says Get returns the value associated to the key if it exists. Set(k,v) with a key containing '>' stores the value, but Get(k) answers not found unless the first segment happens to be stored as a plain value. Exact condition proved for all keys.", "quantifier": "every key containing '>' and every dataset", "why_tests_cant": "a test fixes one history and one clock; the claim ranges over all of them", "anchors": ["v2/xdataset.go:XDataset.Get"]}
{"id": "C23", "title": "Integer reading is exact", "statement": "GetInt on a value of any Go integer kind, on a bool and on a float in range returns the mathematical value (truncated towards zero for floats); the only exception are uint and uint64 values above 2^63-1, which wrap to negative numbers. Other stored kinds report not found.", "quantifier": "every value of every integer kind, every finite float", "why_tests_cant": "exhausting 64 bit integers and floats is impossible", "anchors": ["v2/xdataset.go:GetInt"]}
{"id": "C24", "title": "Float reading is exact for every integer up to 2^53", "statement": "GetFloat on any integer kind with absolute value at most 2^53 returns exactly that number; above, it is the nearest float (ties to even), so 2^53+1 is not preserved. float32 and float64 values are preserved exactly. Booleans read as 0 and 1, times as their Unix seconds (exactly up to 2^53; the zero time as 0); other stored kinds report not found.", "quantifier": "every integer, every float32/float64 value", "why_tests_cant": "exhausting 64 bit integers is impossible", "anchors": ["v2/xdataset.go:GetFloat"]}
{"id": "C25", "title": "Truth value reading", "statement": "GetBool is false exactly for false, zero of any numeric kind (including -0.0), the zero time and nil, and true for every other stored value; it reports found exactly when Get does.", "quantifier": "every stored value", "why_tests_cant": "a test fixes one history and one clock; the claim ranges over all of them", "anchors": ["v2/xdataset.go:GetBool"]}
{"id": "C26", "title": "Typed getters agree with Get", "statement": "Every typed getter reports found only if Get does; on a missing path it returns the zero value and false. GetDataset/GetCollection/GetTime/Get*Collection report found exactly when Get finds a value of that type and return that very value. The thread safe wrapper answers exactly like the wrapped dataset.", "quantifier": "every dataset graph, path and getter", "why_tests_cant": "a test fixes one history and one clock; the claim ranges over all of them", "anchors": ["v2/xdataset.go:GetDataset", "v2/xdataset.go:GetTime", "v2/xdatasetts.go:Get"]}
{"id": "C27", "title": "Clone is a deep copy", "statement": "Clone of an acyclic dataset or collection terminates, allocates only new objects, leaves the original unchanged, and every path read on the clone gives the same answer as on the original (sub-datasets and sub-collections being the corresponding clones). Slices stored as values are not copied: see C74.", "quantifier": "every acyclic dataset graph, with arbitrary sharing, and every path", "why_tests_cant": "unbounded nesting and sharing", "anchors": ["v2/xdataset.go:Clone", "v2/xdatasetcollection.go:Clone", "v2/xdatasetts.go:Clone", "v2/xdatasetcollectionts.go:Clone"]}
{"id": "C28", "title": "A clone is independent of the original", "statement": "After Clone, no sequence of Set/Del/Push/Pop/Shift/Unshift on objects of the original changes anything read from the clone, and conversely (writes into the elements of a stored Go slice excepted: see C74).", "quantifier": "every acyclic graph, every later sequence of mutations", "why_tests_cant": "aliasing bugs depend on the sequence of mutations", "anchors": ["v2/xdataset.go:Clone", "v2/xdatasetcollection.go:Clone"]}
{"id": "C29", "title": "Clone of cyclic data never returns", "statement": "If a dataset contains itself (directly or through sub-datasets), Clone does not terminate: no amount of recursion depth suffices.", "quantifier": "every recursion depth", "why_tests_cant": "a test cannot observe non termination", "anchors": ["v2/xdataset.go:Clone"]}
{"id": "C30", "title": "NewXDataset preserves nested maps", "statement": "NewXDataset(m) builds a dataset in which every path through nested maps and arrays of maps reads the value found by the same path in m; collections keep the order of the array.", "quantifier": "every nested Go value of maps, []map and []interface{}, every path", "why_tests_cant": "unbounded nesting", "anchors": ["v2/xdataset.go:NewXDataset", "v2/xdatasetcollection.go:NewXDatasetCollection"]}
{"id": "C31", "title": "Non-map elements of arrays are silently dropped", "statement": "Elements of a []interface{} that are not maps disappear and the following elements shift down, so that index i of the source array is in general not index i of the collection; an array of scalars becomes an empty collection.", "quantifier": "every array; exact index mapping proved", "why_tests_cant": "a test fixes one history and one clock; the claim ranges over all of them", "anchors": ["v2/xdataset.go:NewXDataset"]}
{"id": "C32", "title": "Printing does not depend on map iteration order", "statement": "String and GoString of a dataset, and String, GoString and GetXML of a language, return the same text for every order in which Go iterates the map.", "quantifier": "every map and every two iteration orders", "why_tests_cant": "iteration order is randomised and unobservable to a test", "anchors": ["v2/xdataset.go:String", "v2/xlanguage.go:GetXML", "v2/xlanguage.go:String"]}
{"id": "C33", "title": "A collection is a double ended queue", "statement": "Any sequence of Push, Pop, Shift, Unshift, Count and Get on a collection behaves as on a mathematical list; Pop and Shift panic exactly on an empty collection; Get(i) reports found exactly for 0 <= i < Count. The same holds for the thread safe collection used by one thread.", "quantifier": "every sequence of operations", "why_tests_cant": "a test fixes one history and one clock; the claim ranges over all of them", "anchors": ["v2/xdatasetcollection.go:Push", "v2/xdatasetcollection.go:Pop", "v2/xdatasetcollection.go:Shift", "v2/xdatasetcollection.go:Unshift", "v2/xdatasetcollection.go:Get", "v2/xdatasetcollectionts.go:Push"]}
{"id": "C34", "title": "GetData gives priority to the last entry", "statement": "GetData(k) on a collection returns the value of the entry with the greatest index that has k, and not found when none has it; the outer entries are never consulted once an inner one has the key.", "quantifier": "every collection, key", "why_tests_cant": "a test fixes one history and one clock; the claim ranges over all of them", "anchors": ["v2/xdatasetcollection.go:GetData", "v2/xdatasetcollection.go:GetCollection"]}
{"id": "C35", "title": "The thread safe collection deviates from the plain one", "statement": "For the same content XDatasetCollectionTS and XDatasetCollection agree on every read except: GetDataString of a nil value gives \"<nil>\" instead of \"\", and GetCollection of a value that is not a collection panics instead of reporting not found.", "quantifier": "every collection content and key", "why_tests_cant": "a test fixes one history and one clock; the claim ranges over all of them", "anchors": ["v2/xdatasetcollectionts.go:GetDataString", "v2/xdatasetcollectionts.go:GetCollection"]}
{"id": "C36", "title": "Linearizability of the single-section thread safe methods", "statement": "For XLanguage, XDatasetTS and XDatasetCollectionTS: in every interleaving of any number of threads calling methods made of one critical section (Set, Get*, Del, Push, Pop, Shift, Unshift, Count, Get...), every method returns what it would return in the sequential execution ordered by lock acquisition. The critical sections of XCache are atomic in the same sense, and are the steps of the concurrent model of C16-C18.", "quantifier": "every number of threads, every program of calls per thread, every interleaving of the critical sections", "why_tests_cant": "tests run a handful of schedules out of unboundedly many", "anchors": ["v2/xdatasetts.go:Set", "v2/xdatasetts.go:Get", "v2/xdatasetcollectionts.go:Push", "v2/xlanguage.go:Set", "v2/xlanguage.go:Get", "v2/xcache.go:Set", "v2/xcache.go:mGet", "v2/xcache.go:Clean"]}
{"id": "C37", "title": "XDatasetCollectionTS.GetData can panic under concurrency", "statement": "GetData reads the length and then each entry in separate critical sections: there is a schedule where a concurrent Pop makes it index out of range although every call is legal; if no thread shrinks the collection it never panics.", "quantifier": "existence of a schedule; every schedule without Pop/Shift", "why_tests_cant": "needs an exact preemption point", "anchors": ["v2/xdatasetcollectionts.go:GetData"]}
{"id": "C38", "title": "A panic inside the thread safe wrappers leaves the lock held", "statement": "Shift or Pop on an empty XDatasetCollectionTS, and Set on a XDatasetTS built as &XDatasetTS{} as in the documentation, panic while holding the write lock without releasing it; afterwards every call of any thread on that object blocks forever. Clone of a XDatasetTS whose inner Clone panics, for instance of &XDatasetTS{}, keeps the read lock: from then on no Set and no Del returns. A panic in the cache or language methods releases the lock.", "quantifier": "every later call of every thread", "why_tests_cant": "non termination is unobservable", "anchors": ["v2/xdatasetcollectionts.go:Shift", "v2/xdatasetcollectionts.go:Pop", "v2/xdatasetts.go:Set", "v2/xcache.go:Clean"]}
{"id": "C39", "title": "Language table is a map with statuses", "statement": "Over any sequence of Set, SetStatus, Del, Get, GetStatus: Get(k) returns the last value Set on k since the last Del(k), or the empty string; same for statuses; Set never changes a status, Del removes both; GetEntries returns exactly the current entries. GetName and GetLanguage return the last name and tag set, else those of the constructor; only LoadXMLString changes them otherwise.", "quantifier": "every sequence of operations", "why_tests_cant": "a test fixes one history and one clock; the claim ranges over all of them", "anchors": ["v2/xlanguage.go:Set", "v2/xlanguage.go:Get", "v2/xlanguage.go:Del", "v2/xlanguage.go:GetEntries"]}
{"id": "C40", "title": "LoadString parses the flat format exactly", "statement": "LoadString applies, in order, one Set(key,value) per line of the form key=value where key and value are stripped of surrounding white space (the 25 white space characters of Unicode, in UTF-8) and the split is at the first '='; empty lines, lines starting with # or ;, lines without '=' and lines with blank key are ignored; LF and CRLF line ends and a missing final newline are accepted. Entries that are not mentioned and all statuses are kept (the load is an overlay, not the documented replacement).", "quantifier": "every byte string whose lines are shorter than 64 KiB and every previous table", "why_tests_cant": "arbitrary text input", "anchors": ["v2/xlanguage.go:LoadString"]}
{"id": "C41", "title": "Flat text round trip", "statement": "Writing any table with well formed keys and values (no line breaks, no surrounding white space, keys non empty without '=' and not starting with # or ;) as key=value lines and loading it into an empty language gives back exactly that table.", "quantifier": "every well formed table, every order of lines", "why_tests_cant": "unbounded tables and strings", "anchors": ["v2/xlanguage.go:LoadString"]}
{"id": "C42", "title": "A line of 64 KiB or more aborts the load half way", "statement": "If some line has 65536 bytes or more LoadString returns an error, having applied exactly the lines before it; the constructors return nil.", "quantifier": "every text", "why_tests_cant": "a test fixes one history and one clock; the claim ranges over all of them", "anchors": ["v2/xlanguage.go:LoadString", "v2/xlanguage.go:NewXLanguageFromString"]}
{"id": "C43", "title": "XML output can be loaded back", "statement": "For every table whose name, tag, keys and statuses are made of XML characters in UTF-8 without double quote, '<', '&' and carriage return, whose values are made of XML characters without ']]>', and whose tag is one that language.Parse prints back: the document GetXML produces, whatever the iteration order of the map, is accepted by LoadXMLString, which sets the same name and tag, stores every entry with its status (line ends of the values normalised to line feeds) and leaves the other entries of the receiver alone. Without carriage returns, into a new language, the entries are the same and GetXML gives the same bytes again. Statuses of keys without an entry are not written.", "quantifier": "every such table, every receiver, every iteration order", "why_tests_cant": "unbounded tables and strings", "anchors": ["v2/xlanguage.go:GetXML", "v2/xlanguage.go:LoadXMLString"]}
{"id": "C44", "title": "GetXML does not escape", "statement": "One expects GetXML to escape. It does not, and with all other entries fit: a value with ']]>' followed by no '<' or '&', a value with bytes that are not XML characters, a key with a double quote followed by no '=' or '>', a key with '<', a key with '&' and no ';' after it give a document that LoadXMLString rejects, changing nothing; a value with ']]><![CDATA[' loses those bytes silently; a value can close its entry and write another entry of its choice.", "quantifier": "every such table and iteration order", "why_tests_cant": "a test fixes one history and one clock; the claim ranges over all of them", "anchors": ["v2/xlanguage.go:GetXML"]}
{"id": "C45", "title": "The scanner implements the metalanguage regular expression", "statement": "Splitting a template into literal text and meta elements is exactly the list of leftmost-first matches of the published regular expression: no byte is lost, duplicated or reordered, and a meta element is recognised at the earliest position where one starts.", "quantifier": "every byte string", "why_tests_cant": "arbitrary text input", "anchors": ["v2/xtemplate.go:compile"]}
{"id": "C46", "title": "Plain text is rendered verbatim", "statement": "A template text in which none of the opening marks %-- ## && @@ ?? !! {{ [[ occurs compiles without error and Execute returns it unchanged for every data, including nil.", "quantifier": "every such text and every data", "why_tests_cant": "arbitrary text input", "anchors": ["v2/xtemplate.go:compile", "v2/xtemplate.go:injector"]}
{"id": "C47", "title": "Comments disappear", "statement": "A comment, whatever it contains (meta elements, unbalanced boxes), contributes nothing to the output, together with one line feed or carriage return that follows it; after CRLF only the carriage return is swallowed.", "quantifier": "every text before it that has no unfinished comment (a literal %--), every text after, every comment body without --%, every data", "why_tests_cant": "arbitrary text input", "anchors": ["v2/xtemplate.go:compile", "v2/xtemplate.go:injector"]}
{"id": "C48", "title": "A template compiles exactly when its boxes are balanced", "statement": "compile succeeds if and only if no [[]] occurs without an open [[id]] and every [[id]] is closed; otherwise an error is returned and NewXTemplateFromString returns nil.", "quantifier": "every byte string", "why_tests_cant": "arbitrary nesting", "anchors": ["v2/xtemplate.go:compile", "v2/xtemplate.go:NewXTemplateFromString"]}
{"id": "C49", "title": "Boxes nest as written", "statement": "The compiled template is the tree of the nested boxes: the root holds the elements outside every box in order, each box holds its own direct elements in order, each box is registered in the enclosing box under every non empty |-separated name, the last definition of a name winning.", "quantifier": "every balanced template", "why_tests_cant": "arbitrary nesting depth", "anchors": ["v2/xtemplate.go:compile", "v2/xtemplate.go:AddTemplate"]}
{"id": "C50", "title": "A failed load leaves debris", "statement": "LoadString returning an error leaves the compiled text of the template unchanged but may already have added or replaced sub templates; loading twice keeps sub templates of the first text.", "quantifier": "every template and text", "why_tests_cant": "a test fixes one history and one clock; the claim ranges over all of them", "anchors": ["v2/xtemplate.go:LoadString", "v2/xtemplate.go:compile"]}
{"id": "C51", "title": "Template lookup walks outwards", "statement": "GetTemplate(name) returns the sub template registered under name in the nearest enclosing box that has one, and nil if none; inner boxes are never visible from outside.", "quantifier": "every template tree and name", "why_tests_cant": "a test fixes one history and one clock; the claim ranges over all of them", "anchors": ["v2/xtemplate.go:GetTemplate"]}
{"id": "C52", "title": "Execution follows the metalanguage", "statement": "Execute of a compiled template on data yields the text defined by a compositional semantics of the metalanguage: literals verbatim, {{p}} the innermost value of p as text or nothing, ##e## the language entry, &&t&& / &&t:d&& / &&:f:p&& the referenced template in the same, narrowed or selected scope, @@d:t@@ the concatenation over the collection in order with the .key.i/.first/.last/.even choice, ??d:t?? the conditional with value specific templates; the scope stack is restored after every element.", "quantifier": "every template, data graph and language", "why_tests_cant": "unbounded templates and data", "anchors": ["v2/xtemplate.go:Execute", "v2/xtemplate.go:injector"]}
{"id": "C53", "title": "Execute only touches .counter", "statement": "Execute leaves the template and the data unchanged, except that every dataset that is an element of an iterated collection has its .counter entry set; a template without loops changes nothing at all.", "quantifier": "every template, data graph", "why_tests_cant": "a test fixes one history and one clock; the claim ranges over all of them", "anchors": ["v2/xtemplate.go:injector"]}
{"id": "C54", "title": "Execute is not repeatable in general", "statement": "Because loops write .counter into the caller's data, executing the same template twice on the same data can give two different texts; without loops it always gives the same text.", "quantifier": "existence; every loop-free template", "why_tests_cant": "a test fixes one history and one clock; the claim ranges over all of them", "anchors": ["v2/xtemplate.go:Execute"]}
{"id": "C55", "title": "Condition and loop without .none render the base template", "statement": "The documentation says the sub template of ??x?? is called only if the field exists and has a value, and that a loop iterates the elements. When the value is missing (or the collection is empty) and there is no x.none template, the code renders the base template x once.", "quantifier": "every data without the field, every template with x but no x.none", "why_tests_cant": "a test fixes one history and one clock; the claim ranges over all of them", "anchors": ["v2/xtemplate.go:injector"]}
{"id": "C56", "title": "Execute without data can panic", "statement": "Execute(nil) returns the text with fields, loops, language entries and dumps removed and conditions rendered as without value, as long as no executed reference uses two or three parameters; executing a two-parameter reference to an existing template or any three-parameter reference makes it panic.", "quantifier": "every template", "why_tests_cant": "a test fixes one history and one clock; the claim ranges over all of them", "anchors": ["v2/xtemplate.go:injector", "v2/xtemplate.go:Execute"]}
{"id": "C57", "title": "Execution terminates on non recursive templates", "statement": "If there is a ranking of the templates such that every name that can be looked up from a template resolves to a template of smaller rank, Execute terminates on every acyclic data without nil elements; a template that executes a reference to itself never returns a text.", "quantifier": "every ranked template, data; every recursion depth for the self reference", "why_tests_cant": "non termination is unobservable", "anchors": ["v2/xtemplate.go:injector"]}
{"id": "C58", "title": "A cloned template renders the same", "statement": "Clone terminates on every loaded template. Immediately after it, the clone renders what the original rendered, and every template that existed before (the original, its boxes, the others) renders what it rendered before, for every data, language and recursion depth.", "quantifier": "every compiled template tree, every data", "why_tests_cant": "a test fixes one history and one clock; the claim ranges over all of them", "anchors": ["v2/xtemplate.go:Clone"]}
{"id": "C59", "title": "A cloned template is not independent", "statement": "Clone links the sub templates of the original to the clone and those of the clone to the original: adding a template to the original after cloning becomes visible inside the clone's boxes and invisible in the original's own boxes.", "quantifier": "existence", "why_tests_cant": "aliasing only visible after a mutation", "anchors": ["v2/xtemplate.go:Clone", "v2/xtemplate.go:AddTemplate"]}
{"id": "C60", "title": "A Set can lose the value it stores", "statement": "One expects Get(k) right after Set(k,d), without expiry, to return d. After a Flush this is violated by the code: the recency list still holds the old position of k, and when the Set triggers the automatic cleaning it evicts the very entry just stored, so the next Get misses. (Without Flush and Expire the value is always kept: see C04.)", "quantifier": "existence of a history", "why_tests_cant": "a test fixes one history and one clock; the claim ranges over all of them", "anchors": ["v2/xcache.go:Set", "v2/xcache.go:Flush", "v2/xcache.go:mClean"]}
{"id": "C61", "title": "Cache entries are shared without protection", "statement": "A cache used by several goroutines should be free of data races ('supports multithreading and concurrency'). The code violates this for the bookkeeping inside an entry: two concurrent Get of the same key both write its read time outside of the lock, and Get reads the TTL of an entry outside of the lock while SetTTL writes it.", "quantifier": "existence of a schedule", "why_tests_cant": "tests run a handful of schedules out of unboundedly many", "anchors": ["v2/xcache.go:Get", "v2/xcache.go:SetTTL"]}
{"id": "C62", "title": "Cloning a thread safe collection takes no lock", "statement": "XDatasetCollectionTS is documented as thread safe, but Clone reads the slice without the lock: there is a schedule where Clone reads it while Push writes it.", "quantifier": "existence of a schedule", "why_tests_cant": "tests run a handful of schedules out of unboundedly many", "anchors": ["v2/xdatasetcollectionts.go:Clone", "v2/xdatasetcollectionts.go:Push"]}
{"id": "C63", "title": "The name and the language tag of a language are not protected", "statement": "SetName/SetLanguage/GetName/GetLanguage take no lock and LoadXMLString writes both fields before taking it, so a GetXML under way in another goroutine can be reading the name while it is being written.", "quantifier": "existence of a schedule", "why_tests_cant": "tests run a handful of schedules out of unboundedly many", "anchors": ["v2/xlanguage.go:SetName", "v2/xlanguage.go:LoadXMLString", "v2/xlanguage.go:GetXML"]}
{"id": "C64", "title": "A thread safe dataset reachable from itself can deadlock", "statement": "If an XDatasetTS contains itself, a Get whose path goes through the cycle takes the read lock twice; with a Set arriving in between, both goroutines wait for each other forever.", "quantifier": "existence of a schedule", "why_tests_cant": "tests run a handful of schedules out of unboundedly many", "anchors": ["v2/xdatasetts.go:Get", "v2/xdatasetts.go:Set", "v2/xdataset.go:Get"]}
{"id": "C65", "title": "Lock discipline of the language and of the thread safe dataset and collection", "statement": "For any number of threads calling the methods of one XLanguage, one XDatasetTS (not containing itself) or one XDatasetCollectionTS (Clone excepted): two threads are never at conflicting accesses to the entries, statuses, wrapped dataset or slice; no method asks for a lock it holds; and as long as some call is unfinished some thread can move (no deadlock).", "quantifier": "every number of threads, every program of calls per thread, every interleaving", "why_tests_cant": "tests run a handful of schedules out of unboundedly many", "anchors": ["v2/xlanguage.go", "v2/xdatasetts.go", "v2/xdatasetcollectionts.go"]}
{"id": "C66", "title": "GetData of a thread safe collection can miss a key that is always there", "statement": "One expects a lookup in a thread safe collection to find a key that some element holds during the whole call. Since GetData takes the length and the elements in separate critical sections, an Unshift in between shifts the elements under it: it then reads the new first element instead of the one that has the key, and answers not found. When the other goroutines only push and read, GetData does answer as on the collection at one moment of its call: the value of the last entry that has the key, or not found.", "quantifier": "existence of a schedule, for every pair of elements one of which has the key; every schedule of pushes and reads", "why_tests_cant": "tests run a handful of schedules out of unboundedly many", "anchors": ["v2/xdatasetcollectionts.go:GetData", "v2/xdatasetcollectionts.go:Unshift"]}
{"id": "C67", "title": "A cycle of fathers makes lookups endless", "statement": "GetTemplate(name) never returns exactly when the chain of fathers has no end and none of its templates registers the name. AddTemplate does not prevent this: adding a template to itself, or a template below one of its own descendants, makes the lookup of every other unknown name endless, and Execute of a template that refers to such a name never returns.", "quantifier": "every template heap, name, recursion depth", "why_tests_cant": "non termination is unobservable", "anchors": ["v2/xtemplate.go:AddTemplate", "v2/xtemplate.go:GetTemplate", "v2/xtemplate.go:injector"]}
{"id": "C68", "title": "A template has only one father", "statement": "One expects a template added to two parents to see the names of the parent it is rendered from. AddTemplate overwrites its father: after adding it to a second parent, names it does not define itself are resolved in the second parent only, also when it is rendered from the first, whose output thereby changes.", "quantifier": "every heap and names; existence of a changed output", "why_tests_cant": "aliasing only visible after a second AddTemplate", "anchors": ["v2/xtemplate.go:AddTemplate", "v2/xtemplate.go:GetTemplate"]}
{"id": "C69", "title": "Loading overlays, it does not replace", "statement": "LoadXMLString sets the name and the tag of the document, stores the last entry given for every id with its status, and keeps the text and the status of every id that the document does not mention; a document that cannot be decoded changes nothing. The documentation of the loaders says that the content is replaced: entries not mentioned survive in both formats.", "quantifier": "every language and document", "why_tests_cant": "a test fixes one history and one clock; the claim ranges over all of them", "anchors": ["v2/xlanguage.go:LoadXMLString", "v2/xlanguage.go:LoadString"]}
{"id": "C70", "title": "File loaders", "statement": "Loading a file that can be opened, read and closed is loading its content as a string, for languages (text and XML) and templates, and likewise for the constructors. If opening, reading or (except for XML) closing fails, an error is returned, the object is unchanged and the constructors return nil. One expects the file to be closed in any case: LoadFile of a path that opens but cannot be read (a directory) returns without closing it; in all other cases and for XML no handle is left.", "quantifier": "every path, every behaviour of the operating system", "why_tests_cant": "failures of the operating system are hard to provoke", "anchors": ["v2/xlanguage.go:LoadFile", "v2/xlanguage.go:LoadXMLFile", "v2/xlanguage.go:NewXLanguageFromFile", "v2/xlanguage.go:NewXLanguageFromXMLFile", "v2/xtemplate.go:LoadFile", "v2/xtemplate.go:NewXTemplateFromFile"]}
{"id": "C71", "title": "Typed slice getters convert nothing", "statement": "The documentation of GetFloatCollection says that a field that is not an array is converted to an array and that an array of another type is converted. No conversion takes place: GetFloatCollection, and likewise the other Get*Collection of plain types, answers (nil,false) for every value of any other type.", "quantifier": "every dataset, path and value", "why_tests_cant": "a test fixes one history and one clock; the claim ranges over all of them", "anchors": ["v2/xdataset.go:GetFloatCollection", "v2/xdataset.go:GetIntCollection", "v2/xdataset.go:GetStringCollection"]}
{"id": "C72", "title": "Printing a template", "statement": "String and GoString of a loaded template list the texts of its elements in sorted order, so they do not depend on the order of the elements. One would expect the print to tell templates apart: order and boxes are not shown and the texts are not quoted by String, so templates that render differently print the same.", "quantifier": "every template; existence", "why_tests_cant": "a test fixes one history and one clock; the claim ranges over all of them", "anchors": ["v2/xtemplate.go:String", "v2/xtemplate.go:GoString"]}
{"id": "C73", "title": "What the API builds is well formed", "statement": "Every dataset or collection reached by any sequence of constructors (NewXDataset, NewXDatasetTS, NewXDatasetCollection, &XDatasetCollection{}), Set, Del, Push, Pop, Shift, Unshift, Clone and Execute, storing objects already built, has no dangling reference; on it Get of any path returns and does not panic, and Clone returns if and only if the data is acyclic, provided no nil was pushed. With a nil element in a collection Clone of it never returns normally.", "quantifier": "every sequence of calls, every path", "why_tests_cant": "a test fixes one history and one clock; the claim ranges over all of them", "anchors": ["v2/xdataset.go:NewXDataset", "v2/xdataset.go:Get", "v2/xdataset.go:Clone", "v2/xdatasetcollection.go:Push", "v2/xdatasetcollection.go:Clone"]}
{"id": "C74", "title": "Clone shares the slices stored as values", "statement": "The documentation says that Clone makes a full copy with totally new data memory. Values that are not datasets or collections are copied as interface values: a []string, []int, []bool, []float64 or []time.Time stored in the dataset has the same elements in memory in the clone, so writing an element of the slice read from the original changes what is read from the clone, and conversely.", "quantifier": "every dataset with such a value; every write to an element", "why_tests_cant": "aliasing only visible after a later write", "anchors": ["v2/xdataset.go:Clone", "v2/xdatasetcollection.go:Clone"]}
{"id": "C75", "title": "Typed reads of a collection do not convert", "statement": "The typed getters of a dataset convert between numeric kinds; one expects the same of the typed reads of a collection, documented in the same words. GetDataBool, GetDataInt, GetDataFloat and GetDataTime report found exactly when the value found by GetData has the type bool, int, float64, time.Time, and then return it; otherwise they answer the zero value and false: an int8 3 is read as (3,true) by GetInt of the dataset and as (0,false) by GetDataInt of a collection of that dataset. GetCollection of a plain collection reports found exactly when GetData finds a collection.", "quantifier": "every collection, key, value", "why_tests_cant": "a test fixes one history and one clock; the claim ranges over all of them", "anchors": ["v2/xdatasetcollection.go:GetDataBool", "v2/xdatasetcollection.go:GetDataInt", "v2/xdatasetcollection.go:GetDataFloat", "v2/xdatasetcollection.go:GetDataTime", "v2/xdatasetcollection.go:GetCollection"]}
{"id": "C76", "title": "Without limits and expiry the concurrent cache is an atomic map", "statement": "On a cache made with Maxitems 0 and Expire 0 and no validator, in every interleaving of any number of threads calling Set, Get, Del, Count and Flush, while nobody assigns Maxitems or Expire, every thread receives exactly the answers of a plain map on which the calls are executed one after the other, in an order in which each call takes its place between its begin and its end (linearizability).", "quantifier": "every number of threads, every program of calls per thread, every interleaving of the critical sections", "why_tests_cant": "tests run a handful of schedules out of unboundedly many", "anchors": ["v2/xcache.go:Set", "v2/xcache.go:Get", "v2/xcache.go:Del", "v2/xcache.go:Count", "v2/xcache.go:Flush"]}
{"id": "C77", "title": "Cache calls that do not overlap behave as the sequential cache", "statement": "If the calls of several threads do not overlap in time and nobody assigns Maxitems, Expire or Validator, and the validator is a function of key and creation time, the answers are those of the sequential cache of C01-C15 on the same calls in the same order, with clock readings taken during the calls and, for Verify with a validator, some order of the map.", "quantifier": "every number of threads, every sequence of calls, every clock", "why_tests_cant": "tests run a handful of schedules out of unboundedly many", "anchors": ["v2/xcache.go:Set", "v2/xcache.go:Get", "v2/xcache.go:Clean", "v2/xcache.go:SetTTL", "v2/xcache.go:Verify"]}
{"id": "C78", "title": "Printing a language", "statement": "String and GoString of a language are xcore.XLanguage{...} (with # in front for GoString) around one word key:value per entry (value in Go syntax for GoString), sorted by bytes and separated by one space; the text does not depend on the order of the map. If no key or value contains a space and no key a colon, equal texts of String mean equal tables. One would expect this of every table: it is violated, {a: '1 b:2'} and {a: '1', b: '2'} print the same.", "quantifier": "every table, every iteration order; existence for the violation", "why_tests_cant": "a test fixes one history and one clock; the claim ranges over all of them", "anchors": ["v2/xlanguage.go:String", "v2/xlanguage.go:GoString"]}
{"id": "C79", "title": "Printing a dataset", "statement": "String and GoString of a dataset or collection are exactly the text defined by recursion on the data: a dataset is one word key:value per entry, sorted and separated by spaces, inside xcore.XDataset{...} (# for GoString); a wrapper prints as its dataset; a collection prints its elements numbered from 0, each followed by a space, always in the form of String, a nil element as <nil>; a wrapper of nil makes String panic, and inside other data prints as the text that fmt puts for this panic. On data without cycles and dangling references the print of anything but a wrapper of nil always ends. One would expect print to be safe on all data: on data that reaches a cycle it never returns.", "quantifier": "every heap, object, iteration order; every recursion depth for cycles", "why_tests_cant": "unbounded data; non termination is unobservable", "anchors": ["v2/xdataset.go:String", "v2/xdataset.go:GoString", "v2/xdatasetcollection.go:String", "v2/xdatasetcollection.go:GoString", "v2/xdatasetcollectionts.go:String", "v2/xdatasetts.go:String"]}
{"id": "C80", "title": "Executing a shared template from several goroutines", "statement": "Execute, GetTemplate, String and GoString of a compiled template take no lock and may run in any number of goroutines without data race as long as each Execute works on plain data used by no other goroutine, or executes no loop. One would expect templates to be safe to render concurrently on shared data, and Clone to be a read of the original: both are violated. Two Execute with a loop on the same plain data race on the .counter they write into it, and Clone writes the father of the original's boxes while another goroutine looks a name up.", "quantifier": "every number of threads, calls and interleavings; existence of a schedule for the violations", "why_tests_cant": "tests run a handful of schedules out of unboundedly many", "anchors": ["v2/xtemplate.go:Execute", "v2/xtemplate.go:GetTemplate", "v2/xtemplate.go:Clone"]}
{"id": "C81", "title": "The cache of the root package answers like the one of v2", "statement": "The root package (version 1) documents the same cache without TTL. For every history of NewXCache, Set, Get, Del, Count, Clean, Flush, Verify without validator and assignments of Maxitems and Expire, version 1 gives the answers of version 2 to the same calls with the same clock. Verify with a validator answers the same number and leaves the same entries, but one expects the deleted keys to be forgotten: version 1 leaves them in the recency list. Therefore, without any Flush or expiry, later Sets can exceed Maxitems (11 entries for 10, where version 2 has 9) and a Set can evict the value it has just stored.", "quantifier": "every history; existence for the violations", "why_tests_cant": "a test fixes one history and one clock; the claim ranges over all of them", "anchors": ["xcache.go:Set", "xcache.go:Get", "xcache.go:Clean", "xcache.go:Verify"]}
{"id": "C82", "title": "The cache of the root package is not safe for concurrent use", "statement": "The documentation says that the cache supports multithreading and concurrency. In version 1 no method asks for the lock it holds and no set of calls deadlocks, the recency list is protected if nobody calls Get, and the items are protected if nobody calls Set or Verify; but two Get of present keys write the recency list at the same time without the lock, and Set reads the number of entries after releasing the lock while another Set writes the map.", "quantifier": "every number of threads, calls and interleavings; existence of a schedule for the violations", "why_tests_cant": "tests run a handful of schedules out of unboundedly many", "anchors": ["xcache.go:Get", "xcache.go:Set", "xcache.go:Verify"]}
{"id": "C83", "title": "The language of the root package answers like the one of v2", "statement": "For every history of Set, Get, Del, SetName, GetName, SetLanguage, GetLanguage, LoadString, LoadXMLString, String and GoString on a new language, version 1 gives the answers of version 2, if the XML decoder delivers the same document without the statuses. One expects LoadXMLFile to close the file in any case, as version 2 does: version 1 leaves the handle open when the file can be opened but not read.", "quantifier": "every history, decoder, path and behaviour of the operating system", "why_tests_cant": "a test fixes one history and one clock; the claim ranges over all of them", "anchors": ["xlanguage.go:LoadString", "xlanguage.go:LoadXMLString", "xlanguage.go:LoadXMLFile", "xlanguage.go:String"]}
{"id": "C84", "title": "Typed reads of the root package", "statement": "GetBool, GetInt and GetFloat of version 1 answer what version 2 answers for every path, except: a nil value is not found by GetBool (version 2: false, found), a time is not converted by GetInt and GetFloat and is true for GetBool even when it is the zero time. One expects XDatasetCollection.GetCollection to answer not found for a value that is no collection (the comment in the code asks for the check): version 1 panics exactly then, and otherwise answers like version 2.", "quantifier": "every dataset, path, collection, key", "why_tests_cant": "a test fixes one history and one clock; the claim ranges over all of them", "anchors": ["xdataset.go:GetBool", "xdataset.go:GetInt", "xdataset.go:GetFloat", "xdataset.go:GetCollection"]}
{"id": "C85", "title": "Reading of the template text by the root package", "statement": "The scanner of version 1 cuts every text into literals and elements in exactly one way, described by the rule: the leftmost element, and in it the shortest non empty text between the marks; nothing is lost. If all names are ones that version 2 accepts, both versions read the same. One expects text that is no metalanguage to be kept: the elements of version 1 accept any text between their marks, so the literal text 'a && b && c', kept by version 2, loses its middle part.", "quantifier": "every text", "why_tests_cant": "unbounded texts", "anchors": ["xtemplate.go:compile"]}
{"id": "C86", "title": "Boxes of the root package", "statement": "Loading in version 1 succeeds exactly when the boxes are balanced; it then builds the tree of the boxes as written, each box registered in the enclosing one only, and leaves every other template unchanged. A failed load keeps the compiled text. GetTemplate looks in the template itself only.", "quantifier": "every template and text", "why_tests_cant": "arbitrary nesting depth", "anchors": ["xtemplate.go:compile", "xtemplate.go:LoadString", "xtemplate.go:NewXTemplateFromString", "xtemplate.go:GetTemplate", "xtemplate.go:AddTemplate"]}
{"id": "C87", "title": "Execution in the root package follows a compositional semantics", "statement": "Execute of version 1 on well formed data (or on nil) returns a text exactly when the semantics gives this text, and panics exactly when the semantics says so: references to boxes of the template itself, loops over collections with the .key.i/.first/.last/.even choice, conditions with value specific templates, panic on a lookup through a nil element. The result is unique.", "quantifier": "every template, data graph and language", "why_tests_cant": "unbounded templates and data", "anchors": ["xtemplate.go:Execute", "xtemplate.go:injector"]}
{"id": "C88", "title": "Executions of the root package end", "statement": "Templates loaded from text cannot be recursive in version 1, since a box sees only the boxes inside it: Execute of any loaded template on acyclic data (or nil) always returns or panics. The text [[a]]>&&a&&[[]]&&a&&, endless in version 2 (C57), ends.", "quantifier": "every sequence of loads, every acyclic data", "why_tests_cant": "non termination is unobservable", "anchors": ["xtemplate.go:Execute", "xtemplate.go:injector", "xtemplate.go:compile"]}
{"id": "C89", "title": "Loops and conditions without a value in the root package", "statement": "In version 1 a loop over an empty collection and a condition whose value is missing, nil, a dataset or an empty text render nothing. One expects a loop over a value that is no collection not to bring the program down: it panics exactly then (version 2 renders the .none or base template), and so does a field read inside a nil element.", "quantifier": "every template, scope and value", "why_tests_cant": "a test fixes one history and one clock; the claim ranges over all of them", "anchors": ["xtemplate.go:injector", "xdataset.go:GetCollection"]}
{"id": "C90", "title": "Both versions render the same where they should", "statement": "Loading a text whose names version 2 accepts succeeds in both versions or in none and builds the same templates up to the fathers. Without loops and conditions, and if no box uses a box of its father, Execute on any data gives the same text in both versions, and version 1 never panics. One expects this of every text: a box that refers to a sibling renders nothing in version 1.", "quantifier": "every text, template heap, data; existence for the violation", "why_tests_cant": "a test fixes one history and one clock; the claim ranges over all of them", "anchors": ["xtemplate.go:compile", "xtemplate.go:injector", "v2/xtemplate.go:injector"]}
{"id": "C91", "title": "Printing a template of the root package", "statement": "String and GoString of a loaded template of version 1 list the elements sorted, as those of version 2. One expects them to name the type and to accept any template: they say xcore.XLanguage, and on a template that was never loaded they panic (version 2: xcore.XTemplate{}).", "quantifier": "every template", "why_tests_cant": "a test fixes one history and one clock; the claim ranges over all of them", "anchors": ["xtemplate.go:String", "xtemplate.go:GoString"]}
{"id": "C92", "title": "Rendering depends on the content of the data, not on its addresses", "statement": "Execute on two data graphs with the same content at corresponding addresses gives the same text, whatever the iteration orders of the maps, and leaves data that still correspond; without loops the correspondence need not be one to one. A Clone of complete data shares no object inside itself, and it renders the same text as its original, before and after the cloning, if the template has no loop or if no object of the original is reached in two ways. One expects this of every clone: it is violated, a dataset that is both the element of a loop and the value of a key shows the .counter of the loop in the original and not in the clone.", "quantifier": "every template, pair of data graphs and iteration orders; existence for the violation", "why_tests_cant": "unbounded data; aliasing", "anchors": ["v2/xtemplate.go:Execute", "v2/xtemplate.go:injector", "v2/xdataset.go:Clone", "v2/xdatasetcollection.go:Clone", "v2/xdatasetts.go:Clone", "v2/xdatasetcollectionts.go:Clone"]}
{"id": "C93", "title": "The documented metalanguage", "statement": "The documentation of the metalanguage says: !!list!! dumps the names without the values; a conditional element does not change the level; with &&:field:sport.&& a template [[sport]] is used for other values; loops use loop_first, loop_last, loop_odd; .even is used for the even elements. The code violates each of these: !!list!! is !!dump!! of the outermost dataset, with values; a condition on a dataset renders with this dataset as the innermost one (a condition on any other value does not change the level); the fallback is the template named sport. with the dot; only the names with a dot are used; .even is used for the first, third... element. The documented example of nested data renders as documented.", "quantifier": "every template, scope and value for the rules; existence for the violations", "why_tests_cant": "a test fixes one history and one clock; the claim ranges over all of them", "anchors": ["v2/xtemplate.go:injector", "v2/xcore.go"]}
{"id": "C94", "title": "Flat language texts are put together line by line", "statement": "LoadString of two texts joined by a line feed is LoadString of the first and, if it succeeded, of the second. A line feed at the end changes nothing; loading a text a second time changes nothing, even after an error; the order of the lines does not matter unless two of them give one name different texts; line ends CR LF give the same table as LF if every line with its CR is shorter than 65536 bytes. One expects the last without condition: a line of 65535 bytes loads with LF and fails with CR LF.", "quantifier": "every language and text; existence for the violation", "why_tests_cant": "unbounded texts", "anchors": ["v2/xlanguage.go:LoadString"]}
{"id": "C95", "title": "XML language documents are loaded as documented", "statement": "LoadXMLString accepts every document of the documented format (written with any blanks, quotes, order of attributes, character references, CDATA sections, comments, processing instructions, further attributes and further elements) and loads its name, its language and the last text and status of each id; further attributes such as verified are ignored, so documents that differ only in these ways load the same. What GetXML writes is such a document. A document that was cut off anywhere, a text in which an element is not closed or closed under another name, and a text with another error inside the outer element (two dashes in a comment, a < or & that begins nothing, a tag whose name begins with a digit, a dot or a dash, an attribute without value or without quotes, ]]> in text, control characters or bytes that are no UTF-8 in text), is rejected and leaves the table as it was. One expects anything else to be rejected: the name of the outer element is not checked (<html/> is a table), and whatever follows the document is not read.", "quantifier": "every document of the grammar, every table, every trailing text", "why_tests_cant": "unbounded documents", "anchors": ["v2/xlanguage.go:LoadXMLString", "v2/xlanguage.go:GetXML", "v2/xcore.go"]}
{"id": "C96", "title": "Collections and the recency list do not show shared array cells", "statement": "Push, Pop, Shift, Unshift, Count, Get and Clone of any number of collections answer and fail as independent lists do, whatever capacity append chooses: a cell of an array that is reused after a removal is never seen through another collection. The recency list of the cache, whose elements are moved inside their array on removal, is a list as well. One expects the same of a collection copied by assignment (the type is a slice): the copy shares the array, and Pop and Push on the original change an element of the copy.", "quantifier": "every growth policy of append, every program over any number of collections, every history of the recency list", "why_tests_cant": "capacity and sharing of arrays are unobservable until they corrupt data", "anchors": ["v2/xdatasetcollection.go:Push", "v2/xdatasetcollection.go:Pop", "v2/xdatasetcollection.go:Shift", "v2/xdatasetcollection.go:Unshift", "v2/xdatasetcollection.go:Clone", "v2/xcache.go:removeFromPile", "v2/xcache.go:mClean"]}
{"id": "C97", "title": "Languages and caches that were not made by New", "statement": "XLanguage and XCache are exported structures, so &XLanguage{} and &XCache{} can be made without New; their maps are nil. Such a language answers every call that stores nothing as an empty language does; every store panics and it stays empty. One expects a recovered panic to leave the lock free, as it does after Set, SetStatus and LoadXMLString: LoadString with an entry panics with the lock taken, and exactly after that every call that needs the lock waits for ever. Such a cache answers every call but Set as an empty cache does, Set panics without effect, and after the first Flush it is a cache like any other.", "quantifier": "every history of calls with recovered panics, every text, every document, every clock", "why_tests_cant": "a deadlock after a recovered panic needs the right order of calls", "anchors": ["v2/xlanguage.go:LoadString", "v2/xlanguage.go:LoadXMLString", "v2/xlanguage.go:Set", "v2/xcache.go:Set", "v2/xcache.go:Flush"]}
{"id": "C98", "title": "Overflow of the share to evict", "statement": "Clean(perc) multiplies the number of entries by perc in 64 bit integers. As long as that product fits an int - in particular for every history with percentages of absolute value at most P in which 10 and P, times the number of calls plus one, fit - the cache behaves as with unbounded integers, so that C01 to C15 apply. One expects a negative percentage to evict nothing and a percentage above 100 to be refused or to empty the cache: Clean(-2^62) on three entries panics, having removed all of them, and Clean(2^62+25) on four entries removes exactly one and answers 1. Whenever the share computed exceeds the recency list Clean panics, having removed every entry of the list.", "quantifier": "every cache, percentage, clock reading and history within the bound; existence of a percentage beyond it", "why_tests_cant": "overflow shows for a few percentages out of 2^64, depending on the number of entries", "anchors": ["v2/xcache.go:mClean", "v2/xcache.go:Clean", "v2/xcache.go:Set", "v2/xcache.go:Verify"]}
{"id": "C99", "title": "Text of plain values", "statement": "GetString answers \"\" for nil, true or false for booleans, for an integer of any kind its decimal numeral (minus sign, digits, no leading zero), a string itself, and for slices of strings, booleans and integers the texts of the elements in square brackets with single spaces between; the print of a dataset shows the same texts. Different integers, and different slices of integers, have different texts. One would expect the text to tell values apart in general: the slices [a b] of one and of two strings print the same, and so do 7 and \"7\".", "quantifier": "every dataset, path and value of these kinds, every integer and slice", "why_tests_cant": "numerals and separators are checked on a few values only", "anchors": ["v2/xdataset.go:GetString", "v2/xdataset.go:String"]}
{"id": "C100", "title": "Datasets with a nil map", "statement": "XDataset is an exported map type, so new(XDataset) and var d XDataset are datasets with a nil map. They answer every read, Del and Clone as an empty dataset does, every Set panics, and they stay empty; a Clone has no nil map. Execute on data with nil maps returns the text it gives with empty maps in their place, if no loop has a dataset with a nil map as an element. One expects a template that only reads to render such data: a loop over a collection with such an element panics, since .counter is stored into it. One expects a recovered panic to leave the lock of a wrapper free: Set through XDatasetTS panics with the lock taken, and exactly after that every call through this wrapper waits for ever. A wrapper that wraps nothing (&XDatasetTS{}) panics on every call; reads leave its lock free, Set and Del keep it.", "quantifier": "every data graph and set of nil maps, every template, every history of calls through any wrappers with recovered panics; existence for the violations", "why_tests_cant": "a deadlock after a recovered panic needs the right order of calls", "anchors": ["v2/xdataset.go:Set", "v2/xdatasetts.go:Set", "v2/xdatasetts.go:Get", "v2/xdataset.go:Clone", "v2/xtemplate.go:injector"]}
{"id": "C101", "title": "A recently used entry is not evicted", "statement": "In a cache without expiry whose Maxitems stays at least M (or 0), a value stored with Set is answered by Get as long as, at every moment since, fewer than nine tenths of M other keys were Set or looked up since the last use of its key (a limit below 10 counting as 10), if nobody calls Clean, Flush, Del, SetTTL or Set on that key and every validator accepts it. In particular it is answered if that few other keys were Set or looked up at all. The number is exact: for every positive Maxitems there is a history with exactly that many Sets of other keys after the Set after which the value is gone.", "quantifier": "every history, limit, clock and validator; existence for the exactness", "why_tests_cant": "unbounded histories", "anchors": ["v2/xcache.go:Set", "v2/xcache.go:Get", "v2/xcache.go:mClean", "v2/xcache.go:Verify"]}
{"id": "C102", "title": "Printed values are inserted literally; the rest of the page does not depend on them", "statement": "Take a template in which some fields of the data are only printed: no condition, selection or dump depends on them. For any contents of these fields (any values that are no datasets or collections, in all records of the data at once) Execute gives one and the same pattern, in which the text of the field is inserted at each hole; nothing in an inserted text is read as metalanguage, and no content makes the execution fail. Fields that are neither printed nor tested have no effect at all.", "quantifier": "every template, data graph, assignment of free fields and their contents", "why_tests_cant": "quantifies over all contents of all fields at once", "anchors": ["v2/xtemplate.go:Execute", "v2/xtemplate.go:injector", "v2/xdatasetcollection.go:GetData"]}
{"id": "C103", "title": "The limit of the cache when Gets overlap other calls", "statement": "In a cache with a positive Maxitems and without expiry, neither of them assigned meanwhile, one expects C06 of every interleaving of any number of threads: at most Maxitems-1 (or 9) entries as long as nobody calls Flush. What holds is: at most that many plus the number of Gets during which another thread makes a step, and at most that many superfluous keys in the recency list. It is violated otherwise: a Get whose entry is deleted by another thread before the Get ends puts the key back into the recency list without an entry. By Set, Get and Del alone the cache reaches any size whatever Maxitems is, the recency list of an empty cache any length, and a Set can evict the very value it stores, so that the next Get of the same thread does not find it.", "quantifier": "every number of threads, calls and interleavings without Flush; existence of schedules for the violations", "why_tests_cant": "tests run a handful of schedules out of unboundedly many", "anchors": ["v2/xcache.go:Get", "v2/xcache.go:Set", "v2/xcache.go:Del", "v2/xcache.go:mClean"]}
{"id": "C104", "title": "Reading and writing through paths", "statement": "If the segments of a path lead from a dataset to another one (each naming a sub-dataset, or a collection and then the number of an element), then Get of a longer path equals Get of its rest on the dataset reached. A value Set there under a key without > is found by Get of the path followed by the key from the start, and not found after Del, provided the key is not a segment of the path or the dataset does not contain itself. Set and Del of a key change no Get, on any dataset, of a path without that key as a segment. Push on any collection changes nothing any Get finds, and Pop makes nothing appear. After Unshift on a collection, what a path found is found by the path in which the number of every element of that collection is larger by one (wherever and however often the path goes through the collection), and after Shift by the path with the numbers smaller by one. It is violated where keys contain > or datasets contain themselves: a dataset stored under the key a>b next to a plain value a is found by Get(a>b), but nothing of it is found by longer paths; and a Set can cut the path that leads to it.", "quantifier": "every heap of datasets, wrappers and collections, path and key; existence for the violations", "why_tests_cant": "unbounded depth and shared or cyclic structure", "anchors": ["v2/xdataset.go:Get", "v2/xdataset.go:Set", "v2/xdataset.go:Del", "v2/xdatasetcollection.go:Push", "v2/xdatasetcollection.go:Pop"]}
{"id": "C105", "title": "Written templates are read back", "statement": "A program that writes a template from a list of words (texts without the opening marks, no two side by side; elements with names of the allowed characters; comments that do not contain their end) and puts a line break after comments and box marks gets exactly these words compiled, also in front of any other text; a tree of boxes gives a template with exactly this tree of sub templates. And every text whatever, with any metalanguage in it, can be produced by a template without data: its characters with an empty comment and a line break after each.", "quantifier": "every list of words, tree of boxes and text", "why_tests_cant": "unbounded sizes, all characters", "anchors": ["v2/xtemplate.go:LoadString", "v2/xtemplate.go:compile", "v2/xtemplate.go:Execute"]}
{"id": "C106", "title": "Languages loaded while others use them", "statement": "Any number of goroutines call Set, Get, SetStatus, GetStatus, Del, GetEntries, LoadString and LoadXMLString on one language. A Get answers the empty string, the initial value, or a value that a call made before the answer writes for that entry. If there are only LoadString calls and reads, then when all are over every entry has the value that one of the loaded texts alone gives it, and the entries of no text are unchanged. If there are only LoadXMLString calls and reads, entries and statuses are at every moment those of some documents loaded completely one after the other, among them all whose call has returned, and GetEntries only sees such tables. One expects the same of LoadString; it is violated: two concurrent LoadString of two entries each can leave a table that is the result of neither order, and GetEntries can see half of a load.", "quantifier": "every number of goroutines, calls, texts and interleavings; existence for the violations", "why_tests_cant": "tests run a handful of schedules out of unboundedly many", "anchors": ["v2/xlanguage.go:LoadString", "v2/xlanguage.go:LoadXMLString", "v2/xlanguage.go:Get", "v2/xlanguage.go:GetEntries"]}
{"id": "C107", "title": "Executions with data that panic", "statement": "With data (datasets, wrappers that wrap something, collections of datasets or nil) Execute panics exactly when the rendering reaches a loop over a collection and, after the elements before it, meets a nil element; the panic then does not depend on anything else and there is no text. Hence no Execute panics if the collections that the data lead to have no nil element, whatever the templates (also recursive) and the data (also cyclic): in particular for all templates and data made with the functions of the package without pushing nil. One expects a nil element to be skipped; it is violated: the loop panics. Paths, conditions and references past a nil element do not panic.", "quantifier": "every loaded templates, well formed data, depth of calls", "why_tests_cant": "unbounded templates and data; absence of panics is not testable", "anchors": ["v2/xtemplate.go:Execute", "v2/xtemplate.go:injector", "v2/xdatasetcollection.go:Get"]}
{"id": "C108", "title": "Changing Maxitems of a cache in use", "statement": "Maxitems is an exported field. One expects that after lowering it the cache soon respects the new limit. Every later Set of a cache without Expire removes at least one entry until at most 18 entries, or fewer than the new limit, are left: after n Sets at most max(limit - 1, 18, old count - n) entries remain. With fewer entries the cache can stay above the limit for ever: 18 entries remain 18 under a limit of 10 however many new keys are set. Raising the limit, or switching it off, loses nothing before the new limit is reached.", "quantifier": "every history of calls without Flush, every old and new limit; for the violation: every number of Sets", "why_tests_cant": "a test fixes one history and one clock; the claim ranges over all of them", "anchors": ["v2/xcache.go:Set", "v2/xcache.go:mClean", "v2/xcache.go:Maxitems"]}
{"id": "C109", "title": "Validators that use the cache", "statement": "Get calls the Validator without holding the lock, so the function may call the cache. Whatever it does: a hit returns the value that was stored when Get was called; after an answer 'invalidated' the key is not in the cache; no call panics and every entry stays in the recency list (for legal percentages). A validator that makes no call is the function of the other properties. Get of a key never returns when its validator begins by asking for the same key, and always returns when the validator asks only for keys of lower rank. The verdict decides together with the Expire the validator leaves; what it did to other keys stays. One expects that a validator that stores a new value under its key lets Get return it: if it accepts, Get returns the old value; if it rejects, the new value is lost. A validator that deletes its key and accepts leaves the key in the recency list, and Maxitems is no longer respected.", "quantifier": "every program of calls made by the validator, every history of calls, every cache; existence for the violations", "why_tests_cant": "the space of programs a validator may run cannot be enumerated", "anchors": ["v2/xcache.go:Get", "v2/xcache.go:mGet", "v2/xcache.go:Del", "v2/xcache.go:Validator"]}
{"id": "C110", "title": "Verify with validators that use the cache", "statement": "Verify calls the Validator without holding the lock while it walks through the entries, so the function may call the cache. If it stores nothing and does not call Flush, then, whatever else it calls and in whatever order the map is walked through: every entry left was there before with the same value and creation time, is not expired, and was accepted by a run of the validator during this Verify, and the number returned is at most the number of entries removed. No panic and the recency list covers every entry for every validator that keeps to legal percentages and does not call Flush; Verify returns if the validator asks only for keys of lower rank. One expects the number returned to be the number of entries removed, and a renewed entry to survive: the entries the validator removes itself are not counted, and a value it stores under its key before it rejects is lost.", "quantifier": "every program of calls made by the validator, every cache, iteration order and clock; existence for the violations", "why_tests_cant": "the space of programs a validator may run cannot be enumerated", "anchors": ["v2/xcache.go:Verify", "v2/xcache.go:Clean", "v2/xcache.go:Del", "v2/xcache.go:Validator"]}
{"id": "C111", "title": "Rewriting templates keeps their meaning", "statement": "Two texts that say the same - the same words and elements in the same order outside the boxes, and under every name a box that says the same, wherever the boxes stand, whatever hidden boxes of the same name and whatever comments there are, at all depths - are executed alike on every data: the same text, the same writes, the same panics. In particular a text loaded twice, among whatever other templates. A text that consists of the words of two texts over the same boxes gives the text of the first followed by the text of the second executed on the data the first left. A reference &&a&& may be replaced by the content of the box a if that has no inner boxes, and left out if no box has the name a. One expects the replacement also with inner boxes: it is violated, their names are only seen from inside.", "quantifier": "every text, pair of texts with these trees, template heap, data, language and depth; existence for the violation", "why_tests_cant": "quantifies over pairs of programs and all data", "anchors": ["v2/xtemplate.go:compile", "v2/xtemplate.go:LoadString", "v2/xtemplate.go:GetTemplate", "v2/xtemplate.go:injector", "v2/xtemplate.go:Execute"]}
{"id": "C112", "title": "Executions at the same time", "statement": "Several goroutines call Execute, with the same or different templates and with data that may be shared. Whatever the order of their accesses, all come to an end, and at every moment the data are as at the beginning but for the .counter of elements of collections that one of them loops over. An execution that looks at no counter (it prints no object and no path with .counter, tests no collection, dumps nothing, and no .counter in its data is an object) gives the text, or the panic, it gives alone, whatever the others execute. So does every execution if each of the others has no loop or loops over no element that is in its data. One expects this of every execution on data with locks (XDatasetTS, XDatasetCollectionTS): it is violated, two loops over the same elements in different positions number them with each other's counters, a text that no order one after the other gives.", "quantifier": "every number of executions, template, data graph and interleaving of the accesses; existence for the violation", "why_tests_cant": "interleavings cannot be enumerated by tests", "anchors": ["v2/xtemplate.go:Execute", "v2/xtemplate.go:injector", "v2/xdatasetcollection.go:GetData", "v2/xdatasetts.go:Set", "v2/xdatasetts.go:Get"]}
{"id": "C113", "title": "Settings of the cache assigned by other goroutines", "statement": "Maxitems and Expire are exported fields, and other goroutines may assign them while the cache is in use, also in the middle of calls. Whatever they do, when Get(k) answers 'invalidated', then some entry that was stored under k during the call had a reason: the validator was asked about it during the call and said no, or its age exceeded a TTL it had during the call, or an Expire the cache had during the call; if nobody assigned Expire since the call began and no TTL is used, the age of an entry stored under k during the call exceeded the value of Expire. One expects that switching expiry off (Expire = 0) never makes an entry expire, and switching the limit off never evicts. Both are violated because the fields are read twice without the lock: a Get that overlaps the assignment Expire = 0 deletes an entry of age 1 though Expire was 100 before, and a Set that overlaps Maxitems = 0 evicts one of ten entries though the limit was 1000 before.", "quantifier": "every number of threads, calls, assignments and interleavings, every behaviour of the validator; existence of schedules for the violations", "why_tests_cant": "tests run a handful of schedules out of unboundedly many", "anchors": ["v2/xcache.go:Get", "v2/xcache.go:mGet", "v2/xcache.go:mClean", "v2/xcache.go:Set"]}
{"id": "C114", "title": "Verify while other goroutines use the cache", "statement": "When Verify returns, every entry that was in place during the whole call was accepted by the validator when it was asked about it during the call, whatever other goroutines did meanwhile. Verify removes an entry only if it had expired (in its first step) or if the validator, asked during the call, rejected some entry that was stored under the same key during the call. If the validator is a function of key and creation time, its answers are those of the function.", "quantifier": "every number of threads, calls, assignments and interleavings; every behaviour of the validator", "why_tests_cant": "tests run a handful of schedules out of unboundedly many", "anchors": ["v2/xcache.go:Verify", "v2/xcache.go:Clean", "v2/xcache.go:Flush"]}
{"id": "C115", "title": "Validators that call the cache, whatever they do", "statement": "The Validator is called without the lock, so it may call everything, also Flush and Set of new keys during a Verify, assign Maxitems and Expire, and call Get and Verify, which call the validator again, while other goroutines are in the middle of calls. Whatever it does: when Verify returns, every entry that was in place during the whole call was accepted by a run of the validator during this call; if the validator does not panic and keeps to legal percentages, no call panics and every entry is in the recency list. A validator that stores a new key each time it is asked can keep Verify from returning for any number of steps. One expects that Verify does not delete what a validator has just loaded: if the validator flushes the cache and stores a key anew, the walk goes on over the old map, the old entry of that key is rejected, and the new one is deleted.", "quantifier": "every program of calls made by the validator, every state of the cache and of the other goroutines before the call, every clock and iteration order; existence for the violation", "why_tests_cant": "the space of programs a validator may run cannot be enumerated", "anchors": ["v2/xcache.go:Verify", "v2/xcache.go:Get", "v2/xcache.go:Flush", "v2/xcache.go:Validator"]}
{"id": "C116", "title": "Executing a template while other goroutines change the data", "statement": "Whatever other goroutines do with the data, the text of an execution that returns is what its elements mean when each look at the data (Get, Count, printing a value) is made at some moment between its begin and its end, one after the other in the order of the elements. If the others change only entries under keys that the template does not look at (and objects that cannot be seen without these keys), the text is that of an execution alone. One expects more where everything is thread safe: that a page shows the data of one moment, and that a loop over an XDatasetCollectionTS shows each element that stays exactly once. Both are violated: with a set before b a page shows the old a and the new b; if an element is taken off the end between Count and Get, Execute panics; a Shift during the loop makes it leave out an element that stays, an Unshift makes it show one twice.", "quantifier": "all templates, data, numbers and programs of other goroutines and interleavings; existence for the violations", "why_tests_cant": "tests run a handful of schedules out of unboundedly many", "anchors": ["v2/xtemplate.go:Execute", "v2/xtemplate.go:injector", "v2/xdatasetcollectionts.go:Get", "v2/xdatasetcollectionts.go:Count", "v2/xdatasetcollectionts.go:Shift", "v2/xdatasetcollectionts.go:Pop"]}
{"id": "C117", "title": "Templates cloned while they are in use", "statement": "Clone sets Father of the sub templates of the original to the new template before that has its sub templates and its Father. Several goroutines clone templates (also clones of clones), execute them and look up names, in any interleaving of the reads and assignments of the fields. When all have ended, every template executes as it did at the beginning and every clone as the template it was made from. A goroutine whose templates call only boxes of their own (not of the templates around them) sees in every interleaving exactly the texts it would see alone. A lookup never panics and finds nothing or a version of what the template or one around it has under the name. The README promises 'thread safe cloning', so one expects the texts of the others as well; it is violated: two goroutines that clone the same template and execute each its own clone, one of them loses the text of a box called from its neighbour; and an execution that overlaps a Clone of a template inside takes a box of the same name from the page around it.", "quantifier": "every number of goroutines, scripts of Clone and Execute, template trees, map orders, data and interleavings; existence for the violations", "why_tests_cant": "tests run a handful of schedules out of unboundedly many", "anchors": ["v2/xtemplate.go:Clone", "v2/xtemplate.go:GetTemplate", "v2/xtemplate.go:Execute", "v2/xtemplate.go:injector"]}
{"id": "C118", "title": "Templates loaded and extended while they are in use", "statement": "LoadString puts the boxes of a text into the template one by one and assigns Root last; AddTemplate makes the map of sub templates if there is none, sets Father and puts the entry. Whatever goroutines call on templates that they share (NewXTemplate, LoadString, AddTemplate, Clone, GetTemplate, Execute, with data without nil elements), in any interleaving of the reads and assignments of the fields, none of them panics. An execution of a template into which only texts without boxes are loaded meanwhile shows all of the old text or all of one of the new ones, and calls on other templates do not change what it shows. One expects the same of texts with boxes, of two LoadString and of two AddTemplate on one template; the code does not hold this: an execution of a text that shows a box twice can show the old box and then the new one; after two LoadString the Root of one can stay with a box of the other; of two sub templates added at the same time to a template without sub templates, one can be missing.", "quantifier": "all templates that are closed under sub templates and fathers, any number of goroutines with any calls, all interleavings of their accesses, all data without nil elements in collections", "why_tests_cant": "Interleavings of a handful of accesses cannot be forced from a test, and a test that loads while it executes nearly always sees one of the two texts; that no order of accesses panics cannot be sampled", "anchors": ["v2/xtemplate.go:LoadString", "v2/xtemplate.go:compile", "v2/xtemplate.go:AddTemplate", "v2/xtemplate.go:GetTemplate", "v2/xtemplate.go:Clone", "v2/xtemplate.go:Execute", "v2/xtemplate.go:injector"]}
{"id": "C119", "title": "Executing a template while the data grow", "statement": "Other goroutines may set and delete fields, make new datasets, push datasets at the end of thread safe collections and execute templates while a template is executed. Then no execution panics, whatever the interleaving, although it reads Count and Get in separate calls. Every loop shows each element that the collection has at the last Count of the loop exactly once and in order, among them all that were there when the loop began, with its .counter set to its place before it is shown. (Pop, Shift, Unshift in place of Push: C116.) One expects the work of a loop to be bounded by the list it found; Count is called again in every round, so the loop goes on as long as other goroutines keep pushing (violation).", "quantifier": "all templates, data, numbers of goroutines, interleavings of accesses, numbers of elements pushed", "why_tests_cant": "the number of interleavings is unbounded and panics of a missing element appear only if a removal falls between Count and Get", "anchors": ["v2/xtemplate.go:303-492", "v2/xtemplate.go:392-418", "v2/xdatasetcollectionts.go:50-80", "v2/xdatasetts.go:38-49"]}
{"id": "C120", "title": "The same page in every language", "statement": "For every template and data there is one page, a list of fixed texts and of entries named by ##name## elements in the templates that can be called, such that Execute with any language under # gives that page with each entry replaced by its text in the language (nothing if the language has no such entry, or there is no language). So the language changes nothing else: the same branches, loops, lookups and counters, the same end or panic, the same data afterwards; an entry whose text contains metalanguage is not interpreted; entries that the templates do not name do not matter, XLanguage.Set of an entry changes exactly its places, and a # inside the data does not switch the language for a loop or reference.", "quantifier": "every template, data graph, pair of languages, depth of calls", "why_tests_cant": "quantifies over all languages at once; a test compares a few texts", "anchors": ["v2/xtemplate.go:Execute", "v2/xtemplate.go:injector", "v2/xlanguage.go:Get", "v2/xlanguage.go:Set"]}
{"id": "C121", "title": "Executing templates while the languages change", "statement": "Any number of goroutines execute templates while others call Set, Del, LoadString or LoadXMLString on the languages in use. All come to an end. The text of an execution is the page of C120 with each entry as the language has it at some moment during the execution, the moments in the order of the page; branches, loops, panics and the data afterwards do not depend on what the others do. If the others keep the texts of the entries named in the templates, the text is that of an execution alone. So it is if the others call only methods of other languages. One expects a page in one language, since LoadXMLString replaces all entries in one section under the lock: a page of two words can show the first in the old and the second in the new language (violation).", "quantifier": "every number of goroutines, template, data, language call and interleaving; existence for the violation", "why_tests_cant": "tests run a handful of schedules out of unboundedly many", "anchors": ["v2/xtemplate.go:Execute", "v2/xtemplate.go:injector", "v2/xlanguage.go:Get", "v2/xlanguage.go:Set", "v2/xlanguage.go:LoadXMLString"]}
{"id": "C122", "title": "Cloning data while other goroutines change them", "statement": "Clone looks at the objects below the original one after the other, and other goroutines may Set, Del, Push, Unshift, Shift and Pop in between. Every object of the copy is a copy of its original as that was at one moment between begin and end of the call, and the moments are in the order of the visit. If nothing below the original changes meanwhile, the copy is what Clone gives alone; an XDatasetTS with nothing cloneable in it is copied as it was at one moment. Clone never panics, if nobody stores nil elements or wrappers around nothing. What a path of keys finds in the copy is what Get finds in the data of that moment. One expects Clone of a dataset whose sub-datasets are thread safe to show the data of one moment: it does not, with b set before a the copy has the old b and the new a, which never were there together (violation).", "quantifier": "every data graph, map order, number and program of other goroutines, interleaving of the accesses; existence for the violation", "why_tests_cant": "tests run a handful of schedules out of unboundedly many", "anchors": ["v2/xdataset.go:Clone", "v2/xdatasetts.go:Clone", "v2/xdatasetcollection.go:Clone", "v2/xdatasetcollectionts.go:Clone"]}
{"id": "C123", "title": "Printing data while other goroutines change them", "statement": "String and GoString of datasets and collections look at the objects below one after the other, and other goroutines may Set, Del, Push, Unshift, Shift and Pop in between. If nobody stores nil elements or wrappers around nothing, printing never panics, and the text is the one of a copy as C122 describes it: every object as it was at one moment between begin and end, in the order of the visit; a copy has one text. If nothing below changes, it is the text of C79; an XDatasetTS of plain values is printed as it was at one moment. One expects the print of a dataset whose sub-datasets are thread safe to show the data of one moment: it need not, with b set before a it shows the old b and the new a (violation).", "quantifier": "every data graph, map order, number and program of other goroutines, interleaving of the accesses; existence for the violation", "why_tests_cant": "tests run a handful of schedules out of unboundedly many", "anchors": ["v2/xdataset.go:String", "v2/xdataset.go:GoString", "v2/xdatasetts.go:String", "v2/xdatasetcollection.go:String", "v2/xdatasetcollectionts.go:String"]}
{"id": "C124", "title": "Nested thread safe data: goroutines that wait for each other", "statement": "XDatasetTS holds its read lock while Get, the typed getters, Clone and String go into the data below it, and its write lock during Set and Del of its data; the thread safe collection holds its lock during one access or during String. If the objects can be ranked once and for all so that at every moment each object stands above the objects in it, then in every interleaving of any number of goroutines calling any of these methods in any order: nobody waits for itself, directly or through others; unless somebody has panicked with a lock in its hands (C38), whoever waits does so for somebody who can go on; no run is endless, and at its end every call has returned. One expects this of data of any shape, at least of data that never contain themselves. The code violates both: with a child that refers to its parent two Gets and two Sets block each other for ever although no goroutine asks twice for a lock (unlike C64); and with data that contain themselves at no moment, when an element is taken from its owner's collection and its owner is stored in it while a Get through the collection is under way.", "quantifier": "all heaps, goroutines, sequences of calls, paths and interleavings", "why_tests_cant": "A deadlock needs four goroutines and a particular order of their lock operations; no test starts two goroutines on nested data.", "anchors": ["v2/xdatasetts.go:Get", "v2/xdatasetts.go:Set", "v2/xdatasetts.go:Clone", "v2/xdatasetts.go:String", "v2/xdatasetcollectionts.go:Get", "v2/xdatasetcollectionts.go:GetData", "v2/xdatasetcollectionts.go:Shift", "v2/xdataset.go:Get"]}
{"id": "C125", "title": "Reading nested thread safe data", "statement": "Let every XDatasetTS wrap an XDataset of its own that nobody changes except through the wrapper. Then in every interleaving of any number of goroutines calling Get, the typed getters, Set, Del, Clone, String and the methods of collections in any order: whoever changes the inside of an XDatasetTS holds its write lock, and nobody else holds that lock in any way. If what stands under the names of a path are XDatasetTS or values that are no objects, a Get of that path on an XDatasetTS, and each typed getter, returns what the path leads to at one moment of the call, though it locks one object after the other while other goroutines set, delete and remove objects on the way. One expects the same of a path through an XDatasetCollectionTS: the code violates it, since the collection releases its lock before the element is asked: an element taken off the collection and then changed is read through it, a value the path leads to at no moment.", "quantifier": "all heaps, goroutines, sequences of calls, paths, interleavings of the lock operations; existence for the violation", "why_tests_cant": "tests run a handful of schedules out of unboundedly many", "anchors": ["v2/xdatasetts.go:Get", "v2/xdatasetts.go:GetString", "v2/xdatasetts.go:Set", "v2/xdatasetts.go:Del", "v2/xdataset.go:Get", "v2/xdatasetcollectionts.go:Get", "v2/xdatasetcollectionts.go:Shift"]}
{"id": "C126", "title": "Cloning a thread safe collection while its list changes", "statement": "XDatasetCollectionTS.Clone takes no lock: it takes the slice once and reads one cell of its array in each round, while other goroutines Push, Pop, Shift and Unshift. Whatever they do, and whatever the growth of append, it never reads outside the array, it copies as many elements as the collection had at the beginning, and each element it copies was in the collection at some moment of the call. An element that the Pops meanwhile do not reach is copied at its place; if only elements pushed meanwhile are popped, the elements copied are exactly the list at the beginning. One expects of a type with locks that the copy has the list of one moment; the code violates this: if the two elements of a collection are popped and pushed in the other order during a Clone, the copy has the first element twice and the second not at all, though the collection never had an element twice.", "quantifier": "all programs over collections, growth policies and interleavings; existence for the violation", "why_tests_cant": "The cells must be overwritten between two rounds of the loop; no test clones a collection while it changes.", "anchors": ["v2/xdatasetcollectionts.go:Clone", "v2/xdatasetcollectionts.go:Push", "v2/xdatasetcollectionts.go:Pop", "v2/xdatasetcollectionts.go:Shift", "v2/xdatasetcollectionts.go:Unshift"]}
{"id": "C127", "title": "Executing templates on nested thread safe data: goroutines that wait", "statement": "Any number of goroutines execute templates on data with thread safe datasets and collections in them, and call the methods of C124 in between. If at every moment the data can be ranked so that every object is above the objects in it, no goroutine ever waits for itself, directly or through others, and whoever cannot go on waits for somebody who can (unless somebody has panicked with a lock in its hands). For goroutines that execute, read, store plain values and delete, it is enough that the data are so ranked, and every thread safe dataset has a dataset in it, before they begin: no run is endless, and when it stops every execution has come to its end and all locks are free, also after a panic in an execution. One expects executions not to block each other in any case, since they only show data; the code violates this: when a child refers to its parent, an execution that shows the child through the parent, one that shows the parent through the child, and two that loop over lists with them (a loop stores its counter in each element) wait for each other for ever.", "quantifier": "all templates, data, numbers of goroutines and interleavings; existence for the violation", "why_tests_cant": "Depends on the order in which four goroutines reach their locks.", "anchors": ["v2/xtemplate.go:Execute", "v2/xtemplate.go:injector", "v2/xdatasetts.go:Get", "v2/xdatasetts.go:Set", "v2/xdatasetcollectionts.go:Get"]}
{"id": "C128", "title": "How long a page can get", "statement": "If the templates can be ranked so that each calls only templates of lower rank (C57), every template has at most M elements, every collection at most R elements and no text (literal texts, language entries, printed values, dumps, whatever the counters) is longer than V bytes, then the page that Execute gives with a template of rank r has at most V * (M * R)^(r + 1) bytes, and V * M^(r + 1) without data. One expects the page of a template without data to be in some proportion to its text. It is violated: for all m and n there is a text of at most (m + 2) * (n + 10)^2 bytes that NewXTemplateString accepts and whose page, with any data or none, has m^n bytes; so no polynomial in the length of the text bounds the page. Nothing in the package limits the length, and the whole page is built in memory.", "quantifier": "every set of templates, data, language, bounds; every m and n", "why_tests_cant": "a test runs one template; the bound and its violation are about all sizes", "anchors": ["v2/xtemplate.go:Execute", "v2/xtemplate.go:injector", "v2/xtemplate.go:compile"]}
{"id": "C129", "title": "Thread safe data render like plain data", "statement": "Take data and a second version of them in which any of the datasets are wrapped in XDatasetTS, once or several times. Execute of any template gives the same text on both, and the data afterwards correspond again; Get gives corresponding values for every path, and String and GoString the same texts. In particular Execute with a dataset and with an XDatasetTS around it give the same text. One expects the same when XDatasetCollectionTS takes the place of XDatasetCollection. It holds for templates that print no object (no {{path}} or choosing field that can end in an object, no {{dump}} element) and test no collection, whatever they loop over. It is violated otherwise: String of the two kinds of collections begins differently, so {{rows}} of a collection shows its kind.", "quantifier": "every two versions of the data (any correspondence of objects, any depth of wrappers, also cyclic data), all templates, languages and map orders; for collections the templates described", "why_tests_cant": "Tests with thread safe data repeat a few tests with plain data; this is about every template and every way to mix the kinds.", "anchors": ["v2/xtemplate.go:Execute", "v2/xdatasetts.go:Get", "v2/xdatasetts.go:String", "v2/xdatasetcollectionts.go:String", "v2/xdataset.go:String"]}
{"id": "C130", "title": "Loading on demand through the cache", "statement": "A client asks the cache (no Expire, Maxitems constant, validators that accept) for a key and, when the answer is nil, loads the value and Sets it. Every request then gets the value of its key; the first request of a key loads; a later one loads exactly if the number of different keys requested in between is at least the number of entries, which depends only on the limit and the number of loads so far: it grows to the limit less one and falls by a tenth whenever it would reach the limit (limits below 10 count as 10). So a request is served if fewer than nine tenths of the limit other keys came in between, and loads if the limit less one did; fewer different keys than the limit are loaded once each; if every key comes back only after limit less one others, every request loads. A cache whose nine tenths are at least the limit less one of another serves every request that the other serves. One expects any larger limit to do so. It is violated: for every r there are requests with which a limit of 29 loads 30 + 2r times and a limit of 30 loads 30 + 3r times.", "quantifier": "every sequence of requests, limit, clock, set of accepting validators and values; existence for the violation", "why_tests_cant": "Tests fill a cache of one size with one sequence of keys; this relates all sequences and sizes.", "anchors": ["v2/xcache.go:Get", "v2/xcache.go:Set", "v2/xcache.go:mClean", "v2/xcache.go:Count"]}
{"id": "C131", "title": "Several clients that load on demand", "statement": "Several goroutines share a cache; each asks for a key and, when the answer is nil, loads the value of the key and Sets it. Whatever else is done with the cache (Del, Clean, Verify, Flush, SetTTL, assignments of Maxitems, Expire and Validator), if nothing but the value of a key is ever Set under it, every Get answers nil or the value of its key. Without Maxitems and Expire and with validators that accept, no client loads the same key twice, so n clients load it at most n times, and a Get that begins when some Set of the key has ended gives the value. One expects a key to be loaded once: the code violates this, since nothing makes a client wait for another that is loading: for every n there is a run in which n clients all load the same key.", "quantifier": "all numbers of clients, keys, values and interleavings of critical sections; existence for the violation", "why_tests_cant": "Depends on the interleaving of the clients; tests run one goroutine.", "anchors": ["v2/xcache.go:Get", "v2/xcache.go:mGet", "v2/xcache.go:Set"]}
{"id": "C132", "title": "How old the values are that concurrent Gets give", "statement": "Several goroutines use a cache whose Expire is not zero and is not assigned meanwhile; Set, Get, SetTTL, Del, Clean, Verify and Flush may interleave in any way. A value that a Get of key k gives as valid was stored by a Set of k, and a clock reading taken during this very Get is not later than the clock reading of that Set plus Expire. If the clock does not go back, the value was therefore not older than Expire when the Get began. One expects that it is not older than Expire when the Get returns it either, and that an entry whose time to live is one hour and then taken away (SetTTL with 0) stays. Both are violated: Get checks the age before it waits for the lock under which it moves the key to the end of the recency list, so the value may be older by any amount when it is returned; and Get reads the time to live twice without a lock, so that a SetTTL(k, 0) between the two reads makes it drop, one nanosecond after it was stored, an entry that would have lived for an hour or for ever.", "quantifier": "forall number of goroutines, schedules, keys, values, validators, expiries and clock readings; the violations: for every delay n, and a concrete schedule", "why_tests_cant": "A test would have to stop a goroutine between two lines of Get for as long as it likes; the usual tests of expiry sleep and then ask from one goroutine.", "anchors": ["v2/xcache.go:64-78", "v2/xcache.go:85-90", "v2/xcache.go:107-175"]}
