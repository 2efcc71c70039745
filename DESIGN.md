# Formal model of splitgill in Coq 8.16.1

Source modelled: `/repo/splitgill/**/*.py`, read as text. Nothing of it is executed.
Properties: `properties.jsonl` (C01…). Status and theorem names: `MANIFEST.json`.
Wrong programs tried against the theorems: `seeded/LOG.jsonl`. There `failed` lists the theorems whose proof, or that of a
lemma they use, no longer checks after the edit; that a proof breaks does not by itself show that the statement has become false.

Conventions

* Every definition of the model carries a comment with the file and lines it models; simplifications are stated there.
* Exceptions are values (`option`); recursion is structural or has fuel, with a theorem that the fuel suffices.
* Libraries whose behaviour is not defined by the code (str.lower, float formatting, fastnumbers, strptime formats outside the
  modelled ones, shapely, pyproj, unicode tables, dict order of sets) are arguments of the model. Theorems quantify over them; facts
  needed about them are hypotheses of the theorems.
* `Cnn_…_refuted` is a concrete witness, evaluated in the model, that the property as stated is false of the code.
  `Cnn_…_partial` is then the largest useful statement that is true; what is missing is said in the comment and in the manifest.
* Beside each theorem an `Example` shows a non-trivial case that meets its hypotheses.

## Layout (rocq/theories)

| files | content |
|---|---|
| `PyVal`, `PyEq` | values after preparation, `==`, floats (SpecFloat), str as lists of code points, dicts as association lists in insertion order; `PyEq` specifies Python equality independently |
| `Diff`, `DiffProofs`, `DiffExact`, `PropsDiff`, `HeapPatch` | `diffing.py` diff/patch with its work queue; `patch` on an object heap |
| `Time`, `TimeProofs`, `TimeNaive`, `TimeParse`, `PropsTime`, `PropsDates` | timestamps (binary64 arithmetic), calendar, strftime/strptime of the default formats |
| `Prepare`, `PrepareProofs`, `PropsPrepare` | `prepare_data`, `prepare_field_name`, `prepare_record_data`, `partition` |
| `ParserExact`, `EndToEndParsed`, `PropsQueries`, `PropsQueriesMore` | equal parse results are identical; what searches hold and queries select, from the ingested records on |
| `PropsContent`, `PropsTotal`, `ParserPlaces`, `PropsPlaces` | what preparing keeps; when parsing raises; the structure of parsed data |
| `ParserSim`, `EndToEnd`, `PropsEndToEnd`, `PropsEndToEndAny` | parsing is independent of key order; store, parser, sync and search together |
| `Mongo`, `MongoProofs`, `MongoStore`, `MongoMore`, `Store`, `PropsMongo`, `PropsWrites` | data collection, bulk operations, ingest, rollback, commit; `Store` is the abstract versioned store |
| `Repeats`, `PropsRepeats` | streams whose ids come again in later batches: writes decided on what was stored earlier |
| `Bson`, `BsonProofs`, `BsonLimits`, `PropsBson` | the same on the documents as MongoDB holds them: arrays and dotted paths, what is read back, what can be stored |
| `PropsClock` | histories with any clock |
| `Interrupt`, `PropsInterrupt` | commits that are cut off |
| `PropsAtOnce` | syncs at the same time |
| `Raises`, `PropsRaises` | syncs in which parsing a record raises |
| `PropsFormats` | texts in the date formats of the options |
| `BadOptions`, `PropsBadOptions` | formats of the options that raise when they are used |
| `FieldLimit`, `PropsFieldLimit` | the fields of the mapping of an index, and their limit |
| `BsonSize`, `BsonSizeProofs`, `PropsBsonSize`, `PropsBsonRoom`, `PropsBsonNested` | the bytes of the documents of MongoDB, and their limit |
| `PropsBulkSize`, `PropsBulkRoom` | the bytes of the requests of a sync, and the limit on them |
| `SyncThen`, `PropsSyncThen` | the sync that follows a rebuild of the arcs (C47) |
| `PropsChanges` | which changes of the data show in what is indexed (C62) |
| `PropsAtOnceMore` | several syncs at once of which some fail or begin late (C94) |
| `Race`, `PropsRace`, `PropsRaceMore` | several processes on one data collection: reads, writes and commits of documents as single events in any order |
| `SyncRace`, `PropsSyncRace` | a sync whose cursor meets documents of different moments |
| `Client`, `ClientProofs`, `PropsClient` | several databases of one client, options collection, commit, committed version |
| `Locking`, `PropsLocking` | the lock manager as a transition system |
| `LockMeta`, `PropsLockMeta` | the contents of the lock documents |
| `Index`, `IndexSpec`, `IndexProofs`, `PropsIndex` | `RecordVersions.build`, `generate_index_ops` |
| `Sync`, `SyncSpec`, `Sync*`, `PropsSync*` | indices, sync, resync, resync_arcs, search, version queries over whole histories |
| `Workers`, `WorkersProofs`, `PropsWorkers` | `write_ops_async`/`worker` as a transition system over all schedules |
| `Parser`, `Parser*`, `Cache`, `PropsParser*`, `PropsCache` | `parse`, `parse_value`, `rebuild_data`, the lru_cache with its shared dicts |
| `Options`, `PropsOptions` | `ParsingOptions`, builder, document round trip, `update_options` |
| `Names`, `Json`, `PropsNames` | index names and wildcards, templates' patterns, the JSON lines of bulk requests |
| `Bulk`, `BulkParse`, `PropsBulk` | bulk requests: writing JSON, the body, and how it is read |
| `Geo`, `PropsGeo`, `GeoFloat`, `PropsGeoFloat` | shape and winding checks, hints, GeoJSON, WKT (with its regular expression) |
| `GeoParse`, `PropsGeoParse` | the parser with that code in the place of its parameters |
| `Search`, `PropsSearch` | term iteration, query builders and the meaning of the queries |
| `Mapping`, `PropsMapping` | dynamic templates and copy_to, text search, exists queries, byte length of keywords |
| `Fields`, `PropsFields`, `PropsFieldsMore`, `PropsFieldCounts`, `PropsFieldKinds` | `get_data_fields`, `get_parsed_fields`, `DataField`, `ParsedField` |

`Props*.v` hold the property theorems, each followed by `Print Assumptions`.

## Trusted base

* The kernel of Coq 8.16.1 (with `vm_compute`).
* Axioms: all theorems of the manifest are closed under the global context except
  `C49_exact_partial`, `C50_monotone`, `C50_equal`, `C50_calendar`, `C50_now_monotone`, `C50_now_ms`, `C59_float_partial`, `C65_float_coordinates`, `C68_date_partial` and
  `C68_range_between_partial`, which use the
  standard library's reals (through Flocq): `ClassicalDedekindReals.sig_not_dec`, `ClassicalDedekindReals.sig_forall_dec`,
  `FunctionalExtensionality.functional_extensionality_dep`, `Classical_Prop.classic`. No axioms of our own.
* That the definitions below say what the Python code, MongoDB and Elasticsearch do.

### What is modelled

| source | modelled | not modelled |
|---|---|---|
| `diffing.py` | everything, `DiffOp`s both as tuples and as read from MongoDB | objects with own `__eq__` |
| `ingest.py` | everything | – |
| `locking.py` | everything | the text of AlreadyLocked; keyword arguments that BSON cannot hold |
| `model.py` | Record, MongoRecord, GeoFieldHint, ParsingOptions, IngestResult counts | – |
| `manager.py` | everything but the index creation and connections | MongoDB/Elasticsearch client objects; `find_kwargs` other than those used by sync |
| `utils.py` | everything | Term objects |
| `search.py` | everything | analysis and scoring of text |
| `indexing/fields.py` | everything | – |
| `indexing/geo.py` | control flow of all functions, `is_winding_valid` and `is_shape_valid` exactly | shapely, pyproj, GEOS: arguments |
| `indexing/index.py` | everything | – |
| `indexing/options.py` | everything | – |
| `indexing/parser.py` | everything, the lru_cache included | fastnumbers, str.lower, format(), strptime of other formats: arguments |
| `indexing/syncing.py` | write_ops, write_ops_async, workers, retries, setup and refresh | asyncio itself: any interleaving at the awaits; HTTP |
| `indexing/templates.py` | patterns, priorities, dynamic templates, the limit of fields | settings of shards and codecs |

### What is assumed about the outside

* MongoDB: a collection is a list of documents in natural order; `bulk_write` is ordered and may stop after any prefix;
  UpdateOne/DeleteOne act on the first match; `find_one` with a descending sort puts null last; a unique index makes `insert_one`
  atomic. Multi-document snapshots are not assumed. `$set` and `$unset` with dotted paths as documented; BSON holds integers of 64 bits, text
  without surrogates, field names without the character 0; documents are nested to a limit (a parameter, 100 by the documentation). A document
  has at most 16777216 bytes as BSON (C99 only; the other theorems are without this limit); pymongo writes integers of 32 bits with 4 bytes and
  others with 8. `update_many` changes its documents one by one, in any order and with other writes in between; a cursor gives each
  document of the collection once, as it is when the cursor gets there.
* Elasticsearch: a request has at most 104857600 bytes (C100 only; the default of http.max_content_length, without compression, which the client leaves
  off). The limit of fields counts the objects and the fields of the mapping (the predefined ones too, not those of Elasticsearch itself),
  a document that would exceed it is rejected and adds none of its fields, and fields are never taken away; nulls and lists add no field.
* Elasticsearch: a bulk request applies its actions in order; documents become visible with a refresh; a composite aggregation pages
  as documented; term/terms/range/bool/exists queries on keyword, double, boolean, date, date_range and `_index` as documented;
  `lowercase` normaliser on keywords; max aggregation over doubles is exact below 2^53.
* orjson: the escapes of `Bulk.v`, JSONEncodeError for surrogates and integers beyond 64 bits, null for nan and the infinities, JSON numbers for
  other floats. elastic_transport ends every text of a bulk request with a newline unless it has one. Elasticsearch reads a bulk body line by
  line, an action and for index actions a document, and skips empty lines.
* CPython: dicts keep insertion order and the first position of a key; `sorted` and `list.sort` are stable; `int(float)` truncates;
  `datetime.timestamp()` of an aware datetime is the correctly rounded quotient, and of a naive one (with UTC as local time) the float of
  the whole seconds plus the correctly rounded fraction, rounded again; `sum` of floats adds from left to right, since 3.12 with
  Neumaier's correction.
* shapely, pyproj: arbitrary functions that return or raise ValueError/TypeError; errors of other types (pyproj's ProjError from
  `create_polygon_circle` is not caught by `match_hints`) are not modelled. Theorems on complete parses assume that no point in range is
  made of a latitude that is None, an empty string, an empty list or a dict.

## Properties

What is modelled and how it is proved. `refuted`/`partial` theorems and what they leave out are explained in the notes of the manifest.

| id | property | status | model and proof |
|---|---|---|---|
| C01 | diff then patch recreates the new dict | proved | `Diff.v`: the breadth first queue of `diff` and `patch`. Invariant: patching the operations so far followed by the pending comparisons gives the new value. Equality is Python's `==`, keys are distinct. |
| C02 | diff is empty exactly for equal dicts | proved | Same model; a measure on the sizes of the queued pairs gives termination, then empty iff equal by induction. |
| C03 | patch never mutates its inputs | proved | `HeapPatch.v`: `patch` on a heap of mutable objects with sharing. Frame theorem (no old cell changes, even when an exception escapes) and refinement of the pure `patch`. |
| C04 | a change of numeric type is recorded by diff (type-exact round trip) | partial | `DiffExact.v`: the round trip of C01 with a relation between base, new and result, by induction on the comparisons; then place by place. Witness 1 / True. |
| C05 | prepare_data normalises to storable values and is idempotent | partial | `Prepare.v` over arbitrary inputs and character tables, by induction on the value. |
| C06 | field names are always clean | proved | `prepare_field_name` over every string and every character table with the stated facts. |
| C07 | preparing a record loses no field | partial | Witness: two names cleaned to one. Partial by injectivity of the cleaned names. |
| C08 | stored data always carries the record id; only deletes are empty | proved | `prepare_record_data` by cases. |
| C09 | partition loses nothing and respects the size | proved | `partition`, by induction. |
| C10 | MongoDB layer is a faithful versioned store | proved | Refinement of the abstract versioned store (`Store.v`), by induction over histories of ingest, commit and rollback. |
| C11 | rollback restores the last committed state from any crash point | proved | Ingests and rollbacks stopped after any prefix of their writes; an invariant relates the collection to what was committed; rollback restores it. |
| C12 | re-ingesting unchanged data is a no-op | partial | `PropsWrites.v`: the ids written by any stream in any state, by induction over its batches; the condition for one record from the abstract store. Witness for the failing case. |
| C13 | the last occurrence of an id in an ingest stream wins | partial | Witness of 201 records, evaluated. `Repeats.v`: the writes are decided on what was stored when a batch was read and performed later; refinement of the model of `ingest` for every stream. From it closed forms and conditions under which the last occurrence wins. |
| C14 | the last occurrence wins when ids do not repeat across find batches | proved | Refinement of C10 with repeated ids inside a batch of 200. |
| C15 | commit gives all pending changes one version and touches nothing else | partial | `Client.v`: several databases with one options collection; exact effect of every commit; witness with two databases. |
| C16 | histories are well formed | proved | Invariant of C10's refinement: versions strictly descend, the current one is greatest. |
| C17 | history survives a clock that does not advance | partial | Witnesses: equal and decreasing clock values, evaluated. `PropsClock.v`: the refinement of C10 with a condition on each record's own versions only, and its necessity by induction over the calls. |
| C18 | get_committed_version never goes backwards | partial | `get_committed_version` as find_one with sort; its exact value in terms of the abstract store, and when a later value is lower. |
| C19 | every committed database has parsing options | partial | Invariant over calls of a client; witness with two databases. |
| C20 | databases are isolated from each other | partial | Frame theorems for calls on another database, and what becomes of pending options in any sequence of such calls; witness through the options collection. |
| C21 | lock mutual exclusion | proved | `Locking.v`: transition system with any number of processes, nested locks and crashes; invariant over all runs. |
| C22 | a lock is free again whenever no process is inside | proved | Same invariant; exact condition for a lock document to exist. |
| C23 | record version documents cover exactly the record's life | proved | `RecordVersions.build` against `exists_at` (`IndexSpec.v`), for any parser and any equality of parsed data. |
| C24 | the document valid at v holds the data at v parsed with the options in force at v | partial | Same, against `data_at` and `opts_at`; exact description of the options used; witness for the ignored options. |
| C25 | a full sync from scratch indexes everything exactly once | proved | `Sync*.v`: events on a client and its indices; invariant with the exact contents of latest and arcs. |
| C26 | incremental sync equals full sync | partial | Same invariant; witness of a record changed then deleted between two syncs. |
| C27 | incremental sync equals full sync when each commit is synced | proved | Same invariant, histories in which each commit is synced. |
| C28 | a deleted record leaves the latest index | partial | As C26. |
| C29 | sync is idempotent | proved | Same invariant: after a sync nothing is selected by the next one. |
| C30 | search at a version sees exactly the records as of that version | partial | Meaning of the version filter on the contents given by the invariant. |
| C31 | no archive index exceeds its capacity | proved | Arc bookkeeping by induction over events, for every capacity. |
| C32 | version rounding | proved | `get_rounded_version` over every content of the indices. |
| C33 | get_version_changed_counts counts every changed record | partial | Counts over every content; exact statement of what is counted. |
| C34 | term iteration is complete | proved | `Search.v`: composite aggregation as pages of a sorted list; induction on the remaining terms. |
| C35 | rebuild_data inverts parse | partial | `rebuild_data ∘ parse` by induction on the record; exact description of what is forgotten. |
| C36 | parsed value contract | proved | Contract of `parse_value` by cases, for any behaviour of the libraries. |
| C37 | each field path is listed once per record | partial | Sortedness of the compressed lists and `groupby`; parsed types through distinct paths. `PropsFieldCounts.v`: the number of groups of a path in the sorted list, by induction. |
| C38 | parse caching is transparent | partial | `Cache.v`: the cache as a state machine with eviction, shared mutable dicts and hint copies; invariant over all histories. |
| C39 | parsing does not depend on set iteration order | partial | Permutation of the sets; induction on the record. |
| C40 | options survive storage; builder keeps one hint per latitude field | proved | Builder calls characterised by what they leave; document round trip. |
| C41 | update_options stores every change | partial | Equality of options as `__eq__` computes it (hints compare by latitude). |
| C42 | bulk writer delivers every operation exactly once | proved | `Workers.v`: `write_ops_async` and its workers as a transition system; safety by an invariant, termination by a measure, for every schedule. |
| C43 | an error in a bulk request is reported | partial | Same system with failing requests; deadlocks characterised exactly. |
| C44 | the final index state does not depend on the workers' schedule | proved | Operations of one sync commute: induction over permutations. |
| C45 | retry after a timeout is harmless | partial | Same system with timeouts of applied requests; multiset of arc documents. |
| C46 | resync rebuilds Elasticsearch exactly | partial | Exact effect of a resync on any content of the indices. |
| C47 | resync_arcs repairs archives and leaves latest alone | partial | Exact effect of resync_arcs on any state (C47_resync_arcs) and of the sync that follows it on every record (C47_then_sync_exact); latest is completed by that sync iff every record's document was right before or begins after everything to be seen (C47_then_sync_exactly); witness for the failure. |
| C48 | delete operations address the right document | partial | `Json.v`: lines as JSON text with a decoder; witness with a quote in an id. |
| C49 | timestamps are exact milliseconds | partial | binary64 arithmetic with Flocq: error bounds of the division and the product, and of the sum for naive datetimes (`TimeNaive.v`). |
| C50 | timestamps are monotone | proved | Monotonicity of rounding; both ways of computing agree 8192 s from the epoch on; lexicographic order of the calendar. |
| C51 | index names of different databases never clash | partial | `Names.v`: names and wildcards as strings; exact set of databases a wildcard reaches. |
| C52 | index specific version filter selects the right documents | proved | Meaning of the filter on documents of any index. |
| C53 | query builders infer types consistently with indexing | proved | Query builders by cases, composed with the parser. |
| C54 | field listing is complete and correctly linked | partial | `Fields.v`: reading of the terms, links, stable sorts; composed with C34 and C37 down to records. `PropsFieldCounts.v`: sums over the terms exchanged for sums over the documents, without the condition that a path is listed once. |
| C55 | uncommitted changes are never visible in search | proved | Invariant over every event, failures after any prefix and refreshes included. |
| C56 | syncing while changes are pending loses no committed version | partial | Sync with pending records in the invariant of C25; witness. |
| C57 | a failed sync is invisible and repeatable | partial | Frame theorem for failed syncs; exact effect of the repetition. |
| C58 | dates survive ingest and indexing | partial | `TimeParse.v`: strftime at ingest and strptime at indexing, for all dates. |
| C59 | polygon winding check is orientation-exact | partial | `Geo.v`: winding over exact rationals with the shoelace area as specification; for binary64 a forward error analysis of both sums of Python (`GeoFloat.v`, Flocq), and witnesses below the margin. |
| C60 | concurrent ingests keep one document per id | partial | Interleavings of lookups and bulk writes of two ingests; with shared ids the events of `Race.v` (C91) and an invariant on the data of pending documents and outstanding writes. |
| C61 | ingest counts are exact | proved | Counts along the batches of an ingest. |
| C62 | every data change yields a new indexed version | partial | From C35: equal parsed data means equal up to what is forgotten; the listed data types give back the types at every place, so that by induction over the data only changes inside of lists can be lost. |
| C63 | blank builder arguments are ignored | partial | Builder methods by cases. |
| C64 | every index gets the template meant for it | proved | Template patterns and priorities on the names of C51. |
| C65 | only shapes Elasticsearch accepts are indexed, and all of them | partial | Shape checks against a separate specification of valid shapes, any number type. |
| C66 | GeoJSON in a record never makes parsing fail | partial | Exceptions of the geo functions as values; witness with three dimensions. |
| C67 | terms come in descending order of frequency | partial | From the paging of C34: order of the pages. |
| C68 | a query built from a value finds the records that hold it | partial | Queries of C53 with their meaning on parsed records; witnesses. |
| C69 | the parsed path of a data field is where its values are indexed | proved | Fields of C54 against the paths in the parsed document. `PropsFieldsMore.v`: a field has a type in the listing iff some record has it there, by induction on the terms, without conditions on names; so no record is excluded. |
| C70 | records never conflict in the index mapping | proved | `Mapping.v`: dynamic templates as patterns on paths; an invariant of parsed documents says where values and objects are. |
| C71 | keywords never exceed the term limit | partial | UTF-8 length of truncated strings; witness at 8192 characters, and for all options with a greater length. |
| C72 | text search covers every value | proved | copy_to and text fields on parsed documents; composed with the parser. |
| C73 | exists queries select the records with values | proved | Exists on a path means a value at or below it; composed with the parser. |
| C74 | preparing keeps what is given | proved | `PropsContent.v`: an inductive relation between inputs and stored values, independent of the model; induction on the input. |
| C75 | every record can be parsed | partial | `PropsTotal.v`: exact condition for an exception, by induction on the record; witness with one element lists. |
| C76 | a search at a version gives the data of that version | partial | `ParserSim.v` (parsing does not depend on key order), `EndToEnd.v` (the modelled parser satisfies the hypotheses of the sync theorems), `PropsEndToEnd.v`: composition of C30 and C35; witness by computation. |
| C77 | the parsed record has the structure of the record | proved | `ParserPlaces.v`, `PropsPlaces.v`: a place is a list of keys and indices; induction on the place. |
| C78 | id_query selects the record with the id | partial | `PropsQueries.v`: from C53 and the prepared id; witnesses by computation. |
| C79 | queries at a version select by the data of that version | partial | `ParserExact.v` (equal parse results are identical), `EndToEndParsed.v`, `PropsQueries.v`, `PropsQueriesMore.v`: composition of C76 and C53, C72, C73. |
| C80 | only valid geometries are indexed | proved | `GeoParse.v`: the parser with the geometry code of `Geo.v` in the place of its parameters; an invariant of parsed data by induction over the record; C65. |
| C81 | a bulk request asks for exactly its operations | partial | `Bulk.v`: orjson's dumps, serialise, the body and Elasticsearch's reading of it; dumps is read back by the JSON reader of `Json.v`, by induction. `BulkParse.v`: parsed data can be written if the record's can, by induction; where the operations' documents come from. `PropsBulk.v`. |
| C82 | a lock's metadata is that of its holder | proved | `LockMeta.v`: acquire, release, is_locked and get_metadata with the documents' contents. The specification speaks of the calls made so far only; by induction on them, with unique ids as invariant. Forgetting the contents gives the functions of `Locking.v`. |
| C83 | what any sync leaves behind | proved | `SyncStale.v`: the operations of one record on latest, given what the target had before and has now; an invariant that says nothing of latest for records without data, beside the invariant of a history of full syncs; by induction on the history. `PropsSyncAny.v`. |
| C84 | a record's index does not depend on other records | proved | Induction over histories for one record; the invariant of the others only says that no version in the indices is after the last sync (SyncLocal.v). |
| C85 | the indices never show data a record did not have | proved | Induction over histories with no condition on when syncs run; the invariant says that each document of the indices comes from the documents of the record's full history (SyncTruth.v). PropsSyncTruth.v. |
| C86 | search results are data the record really had, with the real parser | proved | C84 and C85 with the modelled parser and rebuild_data: what equals a parse result of the record's data rebuilds to the data (EndToEnd.v). PropsEndToEndAny.v. |
| C87 | listed fields describe themselves correctly | proved | The properties of DataField and ParsedField on top of `Fields.v`; composed with C54_fields_found, and the pairs of types parsing always makes. `PropsFieldKinds.v`. |
| C88 | what MongoDB holds reads back as the record's history | proved | `Bson.v`: the documents, $set/$unset on dotted paths and the code on what is read; a simulation with `Mongo.v` call by call (`BsonProofs.v`), composed with C10. |
| C89 | ingest only writes what MongoDB can store | partial | `BsonLimits.v`: diff, patch and every operation of ingest and rollback keep what BSON can hold, and the nesting, as an invariant of the simulation of C88. Witnesses 2^63 and a surrogate. |
| C90 | a record that could be added can be deleted | partial | The limits of C89; the documents written for adding, committing and deleting a record computed for any data. Witness: data nested 98 levels deep. |
| C91 | committed versions survive concurrent processes | partial | `Race.v`: reads, writes and commits of single documents by any number of processes as events, in any order; an invariant that ties the documents and the outstanding writes to a ledger of what was committed. Witnesses: four schedules. |
| C92 | a sync that runs during a commit does no lasting harm | partial | `SyncRace.v`: the sync whose cursor sees documents of different moments; what it writes for a record depends on that record's document alone. Witness with three records. |
| C93 | a commit that is interrupted is all or nothing | partial | `Interrupt.v`: the commit cut off before or after each of its writes, and in the middle of an update_many with any set of documents reached. The refinement of C10 with a store of which some records are committed (`mixed`). Witness with two records, evaluated. |
| C94 | syncs at the same time do what one does | partial | The operations that `sync_plan` gives for each process, their writes in any order (Permutation), or parts of them; the operations of processes that see the same documents differ in the numbers of the arcs only (`gen_ops_strip`), and latest gets one operation per record. Witness: a record changed once, two processes. |
| C95 | a record that cannot be parsed does not keep the others from the index | partial | `Raises.v`: `generate_index_ops` with a parser that can raise, and what a sync that raises leaves behind. Building a record is compared with `build` for the parser that returns the failure as a value; C23 and C24 then say when it raises, and the history up to a commit never changes (C12). Witness: two records, one with coordinates in lists, with the modelled parser. |
| C96 | a text in one of the date formats of the options is indexed as its date | partial | Specification `in_format`: a relation between formats, moments and texts. The regular expression of `strptime` (`Time.v`, white space included) is followed by induction on it: the first way in which it matches reads each part back. C39 for the order of the formats. Witness: year-month-day beside year-day-month, evaluated. |
| C97 | options that are accepted can be used | partial | `BadOptions.v`: the exceptions of `parse_value` that come from formats of the options, as parameters, with the formats of `strptime` that the model reads exact (a directive twice, by induction on the format). C95 with this parser. Witness: the builder accepts %d/%d/%Y; two records that were indexed before, evaluated. |
| C98 | a database whose records have 500 fields can be indexed | partial | `FieldLimit.v`: the fields that a document adds to the mapping, with the limit. From above: the fields of parsed data are those of the record with parsed types, by induction on parse; from below: C77 says what is at the place of each value. Counting with lists without duplicates. Witness: four records with 444 fields; their documents counted by the lower bound. |
| C99 | a record can be changed any number of times | partial | `BsonSize.v`: the bytes of documents and their limit, as the server of C88. An encoder of BSON, by induction. Lower bound: 32 bytes for each entry of the history, an invariant of the store model; upper bound: an invariant with the fields of flat records, by C88's simulation. Nested records: the weight of the queue of comparisons of `diff` pays for what each comparison yields; sizes are the same for equal values, so that the refinement of C10 carries them through reverts. Witnesses: a history of 524289 changes, not evaluated but counted; a text of nearly 16 MiB; 260 dicts under a name of 64 KiB, evaluated. |
| C100 | requests for the indices are small enough | partial | `Bulk.v` and `BulkParse.v`: the bodies of the requests of C81. A request is the concatenation of those of its operations, by induction; with C09 each chunk is within the limit if its operations are. Witness: 100 records with a text of half a MiB, each of which the document has twice; not evaluated but counted, for every behaviour of the libraries. `PropsBulkRoom.v`: what parsing makes of data is three times as long and a constant for each value, by induction on the data; grouping the types makes them no longer. |

## Findings (behaviour of the code contrary to a property)

| property | what happens |
|---|---|
| C04 | a change from 1 to True or 1.0 is not recorded |
| C05 | objects stored through `str()` keep control characters |
| C07 | `a.b` and `a_b` become the same field; one value is lost |
| C12 | data ingested again over a pending change of a committed record is written again |
| C13 | an id repeated more than 200 records later is inserted twice; its delete is lost |
| C15, C20 | commit and rollback_options of one database act on the pending options of all databases |
| C17 | two commits of a record in one millisecond lose a version, can falsify older ones and can make the record unreadable |
| C18 | get_committed_version goes backwards while new data of the newest record is pending |
| C19 | only the first database of a client gets default options; syncing the others raises ValueError |
| C24 | options committed before a record's first version (but after the first options) are ignored for it |
| C26, C28, C46 | a record changed and then deleted between two syncs stays in the latest index, also after a resync |
| C30 | search at the current version raises when all records were deleted before the first sync |
| C33 | at versions with modifications the additions are not counted |
| C35, C62 | empty lists and dicts vanish, empty strings in lists become None |
| C37, C54 | nested names starting with `#`, or nested `_id`s, give a path two entries; its count is then doubled |
| C38 | the cache gives the result of 0.0 for -0.0 |
| C39 | with ambiguous date formats the order of a set decides |
| C41 | hints that differ only in longitude, radius or segments are not stored |
| C43 | a failing request after the last chunk was queued makes write_ops hang; with no workers it always hangs |
| C45, C57 | archive documents are duplicated by a retry after a timeout or by repeating a failed sync |
| C47 | after resync_arcs with an unsynced commit the next sync does nothing, or indexes only the records whose current version begins after all the archived ones |
| C48 | ids with quotes or backslashes are not escaped in delete lines: the delete can go to another document or index |
| C81 | a deleted id with quotes and a newline adds actions to the bulk request, such as deletes in another database |
| C49 | 1.001 s becomes 1000 ms |
| C51 | `data-a-*` selects indices of database `a-b`; with a database `a-arc-b`, get_arc_status of `a` raises and resync of `a` deletes indices of the other |
| C56 | syncing while a change is pending never archives the superseded version |
| C58 | years before 1000 are not indexed as dates where strftime does not pad |
| C59 | rounding can reject correctly wound tiny rings |
| C63 | with_true_value("") and with_false_value("") add the empty string |
| C65 | WKT without a blank after the name of the shape (`POINT(3 4)`) or with one before it is not recognised |
| C66 | three dimensional GeoJSON polygons raise where GEOS reads them |
| C67 | iter_terms yields terms in ascending order of value, not by frequency |
| C71 | keyword lengths over 8191 are accepted; four byte characters then exceed Elasticsearch's term limit and the document is rejected |
| C78 | id_query also selects records whose id differs in case only, and does not find ids longer than the keyword length |
| C76 | after a change from 1 to True (or 1.0) in a record with other changes, a search at the older version shows True |
| C75 | latitude and longitude given as lists of one number: the hint matches and parsing (so the sync) raises TypeError |
| C68 | term_query does not find strings longer than the keyword length, "", and (machine not on UTC) dates and naive datetimes; naive datetimes within 8192 s of the epoch may get a timestamp 1 ms away from the indexed one (`C68_naive_refuted`, `C50_kinds_refuted`) |
| C89 | integers beyond 64 bits and ids with surrogates make ingest raise |
| C90 | data nested 96 to 99 levels deep can be added and committed but not deleted (the history is nested four levels deeper) |
| C91 | ingest and rollback take no lock: a write computed before a commit and carried out after it overwrites the committed version; two processes adding the same record leave two documents |
| C92 | a sync running during a commit can leave a record out for good: pending records are skipped, and the next sync sees the new version in the indices and does nothing |
| C93 | a commit that is cut off leaves some records committed and others not; completed by another commit, records of one ingest have different versions. After the first commit of a database is cut off among the data, sync raises as there are no committed options |
| C94 | two syncs at the same time: documents of the arcs have no id, so both add them and a search at an older version finds a record twice, until `resync_arcs` |
| C95 | one record that cannot be parsed (C75) stops every sync; correcting or deleting it does not help as its history is parsed again each time, and a resync that stops has already deleted the arcs |
| C96 | a text that two formats of the options read differently is indexed as one of the two dates, depending on the order of a set |
| C97 | `with_date_format` accepts a format with a directive twice (`%Y-%m-%d %x` is one, too); `strptime` raises `re.error` for it, which is not a ValueError, and so do all syncs from then on, also after the options are put back, as older options are used again for the history of each record; likewise formats for floats such as `{1}` |
| C98 | an index takes 4000 fields; each field of a record uses up to nine of them, and those of older data stay: with all types, 443 fields fit and 444 do not (the comment in `templates.py` says about 500-600), and with text only 997 at most |
| C99 | the history of a record is in its document, which MongoDB limits to 16 MiB: each change takes at least 32 bytes, with the old values and the path of each nested dict or list that changes; at the limit `ingest` raises, or `commit` does for a record that `ingest` took, and so does every later commit of the database until that record is rolled back |
| C100 | requests to Elasticsearch have 100 operations whatever their size: 100 records of half a MiB make one of more than the 100 MB that Elasticsearch takes by default, and the sync raises |
