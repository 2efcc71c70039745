{"id": "C01", "title": "diff then patch recreates the new dict", "statement": "For any two JSON-like dicts base and new, patch(base, list(diff(base, new))) succeeds and returns a dict equal (==, NaN counted equal to itself) to new.", "quantifier": "every pair of finite dicts of arbitrary nesting, size, key sets and scalar types", "why_tests_cant": "the space of pairs of nested containers is unbounded; the BFS op order and path copying interact at every depth", "anchors": ["splitgill/diffing.py:diff", "splitgill/diffing.py:patch", "splitgill/diffing.py:DictComparison.compare", "splitgill/diffing.py:ListComparison.compare"]}
{"id": "C02", "title": "diff is empty exactly for equal dicts", "statement": "diff(base, new) yields no operation if and only if base == new, always terminates, and every op it yields is non-empty.", "quantifier": "every pair of dicts", "why_tests_cant": "needs all pairs: an undetected difference anywhere at any depth would be a lost update", "anchors": ["splitgill/diffing.py:diff", "splitgill/diffing.py:DictComparison.compare", "splitgill/diffing.py:ListComparison.compare"]}
{"id": "C03", "title": "patch never mutates its inputs", "statement": "While patch(base, ops) runs no container that existed before the call (base, anything nested in it, anything in ops) is modified; the result is built in freshly copied containers.", "quantifier": "every object graph (with any sharing) and every op list, including ones that make patch raise", "why_tests_cant": "aliasing bugs only show on particular sharing patterns", "anchors": ["splitgill/diffing.py:patch"]}
{"id": "C04", "title": "a change of numeric type is recorded by diff (type-exact round trip)", "statement": "patch(base, diff(base,new)) reproduces new including the types of scalars, i.e. changing 1 to True or to 1.0 is recorded like any other change.", "quantifier": "every pair of dicts", "why_tests_cant": "Python equality conflates bool/int/float only on particular values", "anchors": ["splitgill/diffing.py:DictComparison.compare", "splitgill/diffing.py:ListComparison.compare"]}
{"id": "C05", "title": "prepare_data normalises to storable values and is idempotent", "statement": "prepare_data always returns a value made only of None, str, int, float, bool, list and dict with clean str keys, strings contain no control characters except newline, carriage return and tab, and prepare_data(prepare_data(x)) == prepare_data(x).", "quantifier": "every Python input value, including tuples, sets, dates, arbitrary objects and arbitrary keys", "why_tests_cant": "input space is unbounded", "anchors": ["splitgill/diffing.py:prepare_data"]}
{"id": "C06", "title": "field names are always clean", "statement": "prepare_field_name returns a non-empty name with no control character, no dot, no leading or trailing whitespace, which does not start with _ unless it is exactly _id, and cleaning twice is the same as cleaning once.", "quantifier": "every key and every unicode string", "why_tests_cant": "all strings over all code points", "anchors": ["splitgill/diffing.py:prepare_field_name"]}
{"id": "C07", "title": "preparing a record loses no field", "statement": "Preparing a dict keeps one output field per input field (two input fields never collapse into one).", "quantifier": "every input dict", "why_tests_cant": "collisions only on particular key pairs", "anchors": ["splitgill/diffing.py:prepare_data", "splitgill/ingest.py:prepare_record_data"]}
{"id": "C08", "title": "stored data always carries the record id; only deletes are empty", "statement": "The stored data of any non-delete record has _id equal to the cleaned record id whatever the user put in _id, is never empty, and a delete is stored as exactly {}.", "quantifier": "every record", "why_tests_cant": "all records", "anchors": ["splitgill/ingest.py:prepare_record_data"]}
{"id": "C09", "title": "partition loses nothing and respects the size", "statement": "partition(it, size) with size >= 1 yields lists whose concatenation is the input, each non-empty and of length at most size, all but the last of exactly size.", "quantifier": "every finite iterable and every size >= 1", "why_tests_cant": "all lengths and sizes", "anchors": ["splitgill/utils.py:partition"]}
{"id": "C10", "title": "MongoDB layer is a faithful versioned store", "statement": "After any sequence of ingest/commit/rollback calls with a strictly increasing clock, iterating a record yields exactly its committed versions, newest first, each with the data that was current when that version was committed (plus the uncommitted data first if any), and records never ingested do not exist.", "quantifier": "every finite history of ingest (any records, any batching within the id condition), commit and rollback operations", "why_tests_cant": "history length and interleaving are unbounded", "anchors": ["splitgill/ingest.py:generate_ops", "splitgill/ingest.py:revert_record", "splitgill/ingest.py:generate_rollback_ops", "splitgill/model.py:MongoRecord.iter", "splitgill/manager.py:SplitgillDatabase.commit", "splitgill/manager.py:SplitgillDatabase.ingest", "splitgill/manager.py:SplitgillDatabase.rollback_records"]}
{"id": "C11", "title": "rollback restores the last committed state from any crash point", "statement": "If an ingest stops after any prefix of its bulk operations, rollback_records puts every record back to its last committed version and data and removes records that were never committed.", "quantifier": "every committed state, every later ingest stream and every prefix of the write operations", "why_tests_cant": "every crash point of every stream", "anchors": ["splitgill/ingest.py:generate_rollback_ops", "splitgill/ingest.py:revert_record", "splitgill/manager.py:SplitgillDatabase.rollback_records"]}
{"id": "C12", "title": "re-ingesting unchanged data is a no-op", "statement": "Ingesting a record whose prepared data equals the current data (or differs only in the modified_field when both sides have it) generates no write and leaves the collection unchanged; otherwise it generates exactly one write.", "quantifier": "every collection, record and modified_field", "why_tests_cant": "all data values", "anchors": ["splitgill/ingest.py:generate_ops"]}
{"id": "C13", "title": "the last occurrence of an id in an ingest stream wins", "statement": "ingest leaves exactly one document per record id and its data is that of the last record with that id in the stream, for every stream of records.", "quantifier": "every stream, in particular ids repeated at any distance", "why_tests_cant": "needs streams longer than the internal batch of 200 with particular duplicate layouts", "anchors": ["splitgill/manager.py:SplitgillDatabase.ingest", "splitgill/ingest.py:generate_ops"]}
{"id": "C14", "title": "the last occurrence wins when ids do not repeat across find batches", "statement": "For every stream in which equal ids only occur within the same batch of 200 records, ingest leaves one document per id holding the data of its last occurrence.", "quantifier": "every such stream", "why_tests_cant": "unbounded streams", "anchors": ["splitgill/manager.py:SplitgillDatabase.ingest", "splitgill/ingest.py:generate_ops"]}
{"id": "C15", "title": "commit gives all pending changes one version and touches nothing else", "statement": "commit returns None iff nothing is pending; otherwise every pending record and option gets the one returned version, nothing stays pending and committed records are unchanged.", "quantifier": "every database state", "why_tests_cant": "all states", "anchors": ["splitgill/manager.py:SplitgillDatabase.commit"]}
{"id": "C16", "title": "histories are well formed", "statement": "In every reachable state each record's versions are strictly decreasing from newest to oldest, consecutive versions hold different data, and the first version is never a deletion.", "quantifier": "every history with a strictly increasing clock", "why_tests_cant": "unbounded histories", "anchors": ["splitgill/ingest.py:generate_ops", "splitgill/manager.py:SplitgillDatabase.commit", "splitgill/model.py:MongoRecord.get_versions"]}
{"id": "C17", "title": "history survives a clock that does not advance", "statement": "Two commits never destroy or reorder a record's history even when the clock returns the same millisecond or goes backwards.", "quantifier": "every clock behaviour", "why_tests_cant": "needs particular clock readings", "anchors": ["splitgill/manager.py:SplitgillDatabase.commit", "splitgill/utils.py:now", "splitgill/model.py:MongoRecord.iter"]}
{"id": "C18", "title": "get_committed_version never goes backwards", "statement": "get_committed_version is the greatest version ever committed to the database and later operations never lower it.", "quantifier": "every history", "why_tests_cant": "needs particular mixes of committed and pending data", "anchors": ["splitgill/manager.py:SplitgillDatabase.get_committed_version"]}
{"id": "C19", "title": "every committed database has parsing options", "statement": "After a successful commit the database has at least one committed set of options, so sync never fails for lack of options.", "quantifier": "every client state with any number of databases", "why_tests_cant": "needs several databases sharing the options collection", "anchors": ["splitgill/manager.py:SplitgillDatabase.commit", "splitgill/manager.py:SplitgillDatabase.has_options"]}
{"id": "C20", "title": "databases are isolated from each other", "statement": "An operation on one database never changes the data, options or versions of another one.", "quantifier": "every client state and operation", "why_tests_cant": "needs pairs of databases with pending options", "anchors": ["splitgill/manager.py:SplitgillDatabase.commit", "splitgill/manager.py:SplitgillDatabase.rollback_options", "splitgill/manager.py:SplitgillDatabase.has_uncommitted_options"]}
{"id": "C21", "title": "lock mutual exclusion", "statement": "If every process uses the lock context manager, at most one process is inside the critical section of a given lock id at any moment, whatever the interleaving, and a process that fails to acquire never releases someone else's lock.", "quantifier": "every number of processes and every interleaving", "why_tests_cant": "interleavings are unbounded", "anchors": ["splitgill/locking.py:LockManager.acquire", "splitgill/locking.py:LockManager.release", "splitgill/locking.py:LockManager.lock"]}
{"id": "C22", "title": "a lock is free again whenever no process is inside", "statement": "After a body that finishes or raises the lock is free; a crash inside the body leaves it locked until it is released explicitly.", "quantifier": "every interleaving and crash point", "why_tests_cant": "needs crash points", "anchors": ["splitgill/locking.py:LockManager.lock"]}
{"id": "C23", "title": "record version documents cover exactly the record's life", "statement": "For any record history and options, the indexed versions of the record have pairwise disjoint validity ranges, and a moment v is covered iff the record exists (is non-empty) at v.", "quantifier": "every record history and every set of option versions", "why_tests_cant": "all histories", "anchors": ["splitgill/indexing/index.py:RecordVersions.build", "splitgill/indexing/index.py:RecordVersion.version_end"]}
{"id": "C24", "title": "the document valid at v holds the data at v parsed with the options in force at v", "statement": "The document covering v was parsed from the record's data at v with the newest options whose version is <= v (the earliest options if there are none).", "quantifier": "every record history and option history", "why_tests_cant": "needs particular orders of option and data versions", "anchors": ["splitgill/indexing/index.py:RecordVersions.build"]}
{"id": "C25", "title": "a full sync from scratch indexes everything exactly once", "statement": "Syncing into empty indices makes the latest index hold exactly one document per live record and the arcs hold every superseded version exactly once.", "quantifier": "every Mongo state", "why_tests_cant": "all states", "anchors": ["splitgill/indexing/index.py:generate_index_ops", "splitgill/manager.py:SplitgillDatabase.sync"]}
{"id": "C26", "title": "incremental sync equals full sync", "statement": "After any sequence of ingests, commits and syncs, a sync leaves Elasticsearch with the same documents as syncing everything from scratch.", "quantifier": "every interleaving of commits and syncs", "why_tests_cant": "needs particular multi-commit gaps between syncs", "anchors": ["splitgill/indexing/index.py:generate_index_ops", "splitgill/manager.py:SplitgillDatabase.sync"]}
{"id": "C27", "title": "incremental sync equals full sync when each commit is synced", "statement": "If every commit is followed by a sync before the next commit (and no data is pending at the sync), Elasticsearch always equals a from-scratch sync.", "quantifier": "every history of that shape", "why_tests_cant": "unbounded histories", "anchors": ["splitgill/indexing/index.py:generate_index_ops", "splitgill/manager.py:SplitgillDatabase.sync"]}
{"id": "C28", "title": "a deleted record leaves the latest index", "statement": "After a sync no document of a record whose newest committed version is a deletion remains in the latest index.", "quantifier": "every history", "why_tests_cant": "needs update+delete between two syncs", "anchors": ["splitgill/indexing/index.py:generate_index_ops"]}
{"id": "C29", "title": "sync is idempotent", "statement": "A sync immediately after a successful sync changes no document.", "quantifier": "every state", "why_tests_cant": "all states", "anchors": ["splitgill/manager.py:SplitgillDatabase.sync", "splitgill/indexing/index.py:generate_index_ops"]}
{"id": "C30", "title": "search at a version sees exactly the records as of that version", "statement": "When Elasticsearch is in sync, search(v) returns, for every record, exactly one document (the one holding its data as of v) if it exists at v and none otherwise; the latest-index shortcut taken for v >= newest indexed version agrees with the version filter.", "quantifier": "every history and every v", "why_tests_cant": "all versions and histories", "anchors": ["splitgill/manager.py:SplitgillDatabase.search", "splitgill/search.py:version_query"]}
{"id": "C31", "title": "no archive index exceeds its capacity", "statement": "generate_index_ops never puts a document into an arc that already holds the maximum number of documents, fills arcs in order without gaps and never writes to an arc older than the current one.", "quantifier": "every arc status and op stream", "why_tests_cant": "needs millions of documents", "anchors": ["splitgill/indexing/index.py:generate_index_ops", "splitgill/manager.py:SplitgillDatabase.get_arc_status"]}
{"id": "C32", "title": "version rounding", "statement": "get_rounded_version(v) is the greatest indexed version <= v, None iff there is none, and searching at the rounded version gives the same result as searching at v.", "quantifier": "every set of versions and v", "why_tests_cant": "all sets", "anchors": ["splitgill/manager.py:SplitgillDatabase.get_rounded_version", "splitgill/manager.py:SplitgillDatabase.get_versions"]}
{"id": "C33", "title": "get_version_changed_counts counts every changed record", "statement": "For each version the count is the number of records added, modified or deleted at that version.", "quantifier": "every history", "why_tests_cant": "needs versions mixing additions and modifications", "anchors": ["splitgill/manager.py:SplitgillDatabase.get_version_changed_counts"]}
{"id": "C34", "title": "term iteration is complete", "statement": "iter_terms terminates and yields every distinct value exactly once with its document count, for any chunk size >= 1.", "quantifier": "every index content and chunk size", "why_tests_cant": "all sizes", "anchors": ["splitgill/utils.py:iter_terms"]}
{"id": "C35", "title": "rebuild_data inverts parse", "statement": "rebuild_data(parse(d, options).parsed) == d for every stored record d.", "quantifier": "every prepared dict and options", "why_tests_cant": "all nested values", "anchors": ["splitgill/search.py:rebuild_data", "splitgill/indexing/parser.py:parse"]}
{"id": "C36", "title": "parsed value contract", "statement": "parse_value always gives the raw value, its text, and as keyword the first keyword_length characters of the text; bools are booleans and never numbers unless their text parses, ints and floats are numbers unchanged; strings are boolean iff their lowercase is in the configured values with true taking precedence.", "quantifier": "every scalar and options", "why_tests_cant": "all values", "anchors": ["splitgill/indexing/parser.py:parse_value"]}
{"id": "C37", "title": "each field path is listed once per record", "statement": "In the data_types and parsed_types produced by parse every field path occurs in exactly one entry, which lists exactly the types that occur there, so field counts are record counts.", "quantifier": "every data dict", "why_tests_cant": "needs particular key names", "anchors": ["splitgill/indexing/parser.py:parse", "splitgill/indexing/fields.py:DataField.add"]}
{"id": "C38", "title": "parse caching is transparent", "statement": "Whatever was parsed before, parse_value returns what an uncached call would return.", "quantifier": "every call history, eviction included", "why_tests_cant": "history dependent", "anchors": ["splitgill/indexing/parser.py:parse_value"]}
{"id": "C39", "title": "parsing does not depend on set iteration order", "statement": "Parsing a value gives the same result for every iteration order of the options' date_formats set.", "quantifier": "every permutation of the formats", "why_tests_cant": "hash seeds", "anchors": ["splitgill/indexing/parser.py:parse_value", "splitgill/model.py:ParsingOptions"]}
{"id": "C40", "title": "options survive storage; builder keeps one hint per latitude field", "statement": "from_doc(to_doc(o)) equals o in every field, and any sequence of builder calls yields options with at most one geo hint per latitude field, the last one given, and a keyword length in 1..32766.", "quantifier": "every options value and every call sequence", "why_tests_cant": "unbounded sequences", "anchors": ["splitgill/model.py:ParsingOptions", "splitgill/indexing/options.py:ParsingOptionsBuilder"]}
{"id": "C41", "title": "update_options stores every change", "statement": "update_options with options that differ in any field from the latest committed ones stores them.", "quantifier": "every pair of options", "why_tests_cant": "needs hints differing only outside the latitude field", "anchors": ["splitgill/manager.py:SplitgillDatabase.update_options", "splitgill/model.py:GeoFieldHint.__eq__"]}
{"id": "C42", "title": "bulk writer delivers every operation exactly once", "statement": "For every schedule of the workers without errors, write_ops terminates only after every operation of the stream was sent exactly once and reports exact counts and indices; it cannot deadlock.", "quantifier": "every op stream, chunk size, worker count, buffer size and schedule", "why_tests_cant": "schedules are unbounded", "anchors": ["splitgill/indexing/syncing.py:write_ops_async", "splitgill/indexing/syncing.py:worker"]}
{"id": "C43", "title": "an error in a bulk request is reported", "statement": "If Elasticsearch rejects an operation, write_ops raises in every schedule (it neither hangs nor returns normally).", "quantifier": "every schedule and failing position", "why_tests_cant": "only particular schedules/positions hang", "anchors": ["splitgill/indexing/syncing.py:write_ops_async", "splitgill/indexing/syncing.py:worker", "splitgill/indexing/syncing.py:check_for_errors"]}
{"id": "C44", "title": "the final index state does not depend on the workers' schedule", "statement": "The operations of one sync may be applied in any order with the same resulting documents, because no two operations address the same document.", "quantifier": "every permutation of the ops of one sync", "why_tests_cant": "all permutations", "anchors": ["splitgill/indexing/index.py:generate_index_ops", "splitgill/indexing/syncing.py:worker"]}
{"id": "C45", "title": "retry after a timeout is harmless", "statement": "Retrying a bulk request after a ConnectionTimeout leaves the same documents as sending it once, even when the timed out request had been applied.", "quantifier": "every request and timeout pattern", "why_tests_cant": "needs server-side timing", "anchors": ["splitgill/indexing/syncing.py:worker"]}
{"id": "C46", "title": "resync rebuilds Elasticsearch exactly", "statement": "sync(resync=True) makes Elasticsearch equal to a from-scratch sync whatever it contained before.", "quantifier": "every prior Elasticsearch content", "why_tests_cant": "all states", "anchors": ["splitgill/manager.py:SplitgillDatabase.sync"]}
{"id": "C47", "title": "resync_arcs repairs archives and leaves latest alone", "statement": "resync_arcs never touches the latest index and leaves the arcs equal to those of a from-scratch sync; a later sync still brings everything up to date.", "quantifier": "every prior state", "why_tests_cant": "all states", "anchors": ["splitgill/manager.py:SplitgillDatabase.resync_arcs"]}
{"id": "C48", "title": "delete operations address the right document", "statement": "DeleteOp.serialise yields JSON that decodes to a delete of exactly that index and id.", "quantifier": "every index name and record id", "why_tests_cant": "all strings", "anchors": ["splitgill/indexing/index.py:DeleteOp.serialise"]}
{"id": "C49", "title": "timestamps are exact milliseconds", "statement": "to_timestamp(moment) is the number of whole milliseconds since the epoch with extra precision dropped.", "quantifier": "every moment", "why_tests_cant": "needs particular floating point values", "anchors": ["splitgill/utils.py:to_timestamp"]}
{"id": "C50", "title": "timestamps are monotone", "statement": "A later moment never gets a smaller timestamp, and now() is the time in milliseconds.", "quantifier": "every pair of moments", "why_tests_cant": "all pairs", "anchors": ["splitgill/utils.py:to_timestamp", "splitgill/utils.py:now"]}
{"id": "C51", "title": "index names of different databases never clash", "statement": "An index, wildcard or collection name of one database never matches an index or collection of another one.", "quantifier": "every pair of database names", "why_tests_cant": "needs particular name pairs", "anchors": ["splitgill/indexing/index.py:IndexNames", "splitgill/manager.py:SplitgillClient.get_data_collection"]}
{"id": "C52", "title": "index specific version filter selects the right documents", "statement": "index_specific_version_filter(m) matches a document of a searched index i in m iff the document's range contains m[i].", "quantifier": "every mapping and document", "why_tests_cant": "all mappings", "anchors": ["splitgill/search.py:index_specific_version_filter"]}
{"id": "C53", "title": "query builders infer types consistently with indexing", "statement": "term_query/range_query target the sub-field into which parse puts values of that type; range_query raises iff no bound is given, keeps every bound and selects exactly the records with a value within all of them.", "quantifier": "every argument combination", "why_tests_cant": "all combinations", "anchors": ["splitgill/search.py:term_query", "splitgill/search.py:range_query", "splitgill/search.py:infer_parsed_type"]}
{"id": "C54", "title": "field listing is complete and correctly linked", "statement": "get_data_fields/get_parsed_fields return each path once with the summed counts, children are linked to the field whose path they extend by one component, and the order is by count descending then path ascending.", "quantifier": "every multiset of documents", "why_tests_cant": "all documents", "anchors": ["splitgill/manager.py:SplitgillDatabase.get_data_fields", "splitgill/manager.py:SplitgillDatabase.get_parsed_fields", "splitgill/indexing/fields.py:DataField"]}
{"id": "C55", "title": "uncommitted changes are never visible in search", "statement": "No document ever written to Elasticsearch contains uncommitted data or carries a version that was not committed.", "quantifier": "every history, including syncs while data is pending", "why_tests_cant": "unbounded histories", "anchors": ["splitgill/manager.py:SplitgillDatabase.sync", "splitgill/indexing/index.py:generate_index_ops"]}
{"id": "C56", "title": "syncing while changes are pending loses no committed version", "statement": "If a sync runs while a record has pending changes, a later commit and sync still index every committed version of it.", "quantifier": "every history", "why_tests_cant": "needs a sync between an uncommitted ingest and its commit", "anchors": ["splitgill/manager.py:SplitgillDatabase.sync"]}
{"id": "C57", "title": "a failed sync is invisible and repeatable", "statement": "A sync that fails part way changes nothing visible to searches, and running sync again gives the same result as if it had not failed.", "quantifier": "every prefix of the operations", "why_tests_cant": "crash points", "anchors": ["splitgill/indexing/syncing.py:write_ops", "splitgill/manager.py:SplitgillDatabase.sync"]}
{"id": "C58", "title": "dates survive ingest and indexing", "statement": "With default options a date or datetime ingested into a record is indexed as the timestamp of that same moment.", "quantifier": "every date/datetime", "why_tests_cant": "all moments", "anchors": ["splitgill/diffing.py:prepare_data", "splitgill/indexing/parser.py:parse_value", "splitgill/utils.py:parse_to_timestamp"]}
{"id": "C59", "title": "polygon winding check is orientation-exact", "statement": "is_winding_valid accepts a polygon iff its exterior ring is counter-clockwise and its holes are not counter-clockwise (signed area), independently of the start vertex and of translation; reversing a non-degenerate ring flips the answer.", "quantifier": "every polygon with exact coordinates", "why_tests_cant": "all polygons", "anchors": ["splitgill/indexing/geo.py:is_winding_valid", "splitgill/indexing/geo.py:is_shape_valid"]}
{"id": "C60", "title": "concurrent ingests keep one document per id", "statement": "Two processes ingesting into the same database at the same time never create two documents for one record id.", "quantifier": "every interleaving of two ingests", "why_tests_cant": "interleavings", "anchors": ["splitgill/manager.py:SplitgillDatabase.ingest", "splitgill/ingest.py:generate_ops"]}
{"id": "C61", "title": "ingest counts are exact", "statement": "The inserted/deleted counts reported by ingest equal the change in the number of documents, and updated counts the documents whose stored content changed.", "quantifier": "every stream and state", "why_tests_cant": "all streams", "anchors": ["splitgill/model.py:IngestResult.update", "splitgill/manager.py:SplitgillDatabase.ingest"]}
{"id": "C62", "title": "every data change yields a new indexed version", "statement": "Two consecutive committed versions with different data always give two different documents in the index.", "quantifier": "every pair of data values", "why_tests_cant": "needs particular values", "anchors": ["splitgill/indexing/index.py:generate_index_ops", "splitgill/indexing/parser.py:parse"]}
{"id": "C63", "title": "blank builder arguments are ignored", "statement": "with_true_value, with_false_value, with_date_format and with_geo_hint leave the options unchanged when given None or the empty string (for hints: as either field), as their documentation says.", "quantifier": "every builder state and argument", "why_tests_cant": "all builder states", "anchors": ["splitgill/indexing/options.py:ParsingOptionsBuilder.with_true_value", "splitgill/indexing/options.py:ParsingOptionsBuilder.with_date_format", "splitgill/indexing/options.py:ParsingOptionsBuilder.with_geo_hint"]}
{"id": "C64", "title": "every index gets the template meant for it", "statement": "For every database name, the latest index is created from the latest template and each arc index from the arc template, also when the name makes both patterns match.", "quantifier": "every database name and arc number", "why_tests_cant": "all names", "anchors": ["splitgill/indexing/templates.py:get_latest_template", "splitgill/indexing/templates.py:get_arc_template", "splitgill/indexing/index.py:IndexNames"]}
{"id": "C65", "title": "only shapes Elasticsearch accepts are indexed, and all of them", "statement": "Every geo point/shape put into a document comes from a non-empty Point, LineString or Polygon with longitudes in -180..180 and latitudes in -90..90 (GeoJSON polygons and circles also wound by the right hand rule); every GeoJSON object, WKT text or hinted pair of fields that the libraries read as such a shape is indexed.", "quantifier": "every record and every behaviour of the geometry libraries", "why_tests_cant": "all shapes", "anchors": ["splitgill/indexing/geo.py:match_geojson", "splitgill/indexing/geo.py:match_wkt", "splitgill/indexing/geo.py:match_hints", "splitgill/indexing/geo.py:create_polygon_circle", "splitgill/indexing/geo.py:is_shape_valid"]}
{"id": "C66", "title": "GeoJSON in a record never makes parsing fail", "statement": "match_geojson returns a result or None for every dict; no GeoJSON object makes parse raise.", "quantifier": "every dict and every behaviour of the geometry library", "why_tests_cant": "needs three dimensional input and a newer GEOS", "anchors": ["splitgill/indexing/geo.py:match_geojson", "splitgill/indexing/geo.py:is_winding_valid"]}
{"id": "C67", "title": "terms come in descending order of frequency", "statement": "iter_terms yields the terms in descending order of the number of documents (as its documentation says).", "quantifier": "every index content and chunk size", "why_tests_cant": "all contents", "anchors": ["splitgill/utils.py:iter_terms"]}
{"id": "C68", "title": "a query built from a value finds the records that hold it", "statement": "term_query(field, v) selects every record one of whose values of the field (at any depth, inside lists or not) is v; range_query with dates selects every record with a date between the bounds.", "quantifier": "every record, field, value, options and timezone of the machine", "why_tests_cant": "all values and settings of the machine", "anchors": ["splitgill/search.py:term_query", "splitgill/search.py:range_query", "splitgill/indexing/parser.py:parse"]}
{"id": "C69", "title": "the parsed path of a data field is where its values are indexed", "statement": "DataField.parsed_path is the path under which what is parsed out of the values at the field's path is indexed, and everything indexed there (except geo data) comes from a data field with that parsed path; so it can be used in queries.", "quantifier": "every record, options and library behaviour; every set of records", "why_tests_cant": "all records", "anchors": ["splitgill/indexing/fields.py:DataField.parsed_path", "splitgill/indexing/parser.py:parse", "splitgill/manager.py:SplitgillDatabase.get_data_fields"]}
{"id": "C70", "title": "records never conflict in the index mapping", "statement": "Every value of an indexed record is in a field that the dynamic templates map to a type taking that value, objects are never mapped by a template, and sub-fields (_n, _k, ...) always get the type meant for them whatever the field is called; so no record, with whatever options it was parsed, is rejected by Elasticsearch because of the mapping or because of another record.", "quantifier": "every pair of records, options, library behaviour; every field path", "why_tests_cant": "all pairs of records of any shape", "anchors": ["splitgill/indexing/templates.py:_get_template", "splitgill/indexing/fields.py:ParsedType.path_to", "splitgill/indexing/parser.py:parse", "splitgill/diffing.py:prepare_field_name"]}
{"id": "C71", "title": "keywords never exceed the term limit", "statement": "With any options the builder accepts, no keyword that is sent is longer than the 32766 bytes Elasticsearch allows for a term.", "quantifier": "every record, options and characters", "why_tests_cant": "all strings of all lengths", "anchors": ["splitgill/indexing/options.py:ParsingOptionsBuilder.with_keyword_length", "splitgill/indexing/parser.py:parse_value"]}
{"id": "C72", "title": "text search covers every value", "statement": "match_query without a field searches the text of exactly the values of a record (at any depth and in lists; not null, not empty), with a field exactly the text of the values of the field.", "quantifier": "every record, options, library behaviour and field", "why_tests_cant": "all records", "anchors": ["splitgill/search.py:match_query", "splitgill/indexing/templates.py:_get_template", "splitgill/indexing/parser.py:parse"]}
{"id": "C73", "title": "exists queries select the records with values", "statement": "exists_query(field) selects exactly the records with a value (not null, not empty) in the field or below it; has_geo exactly the records in which a value, object or hint was recognised as geographic.", "quantifier": "every record, options, library behaviour and field", "why_tests_cant": "all records", "anchors": ["splitgill/search.py:exists_query", "splitgill/search.py:has_geo", "splitgill/indexing/templates.py:_get_template"]}
{"id": "C74", "title": "preparing keeps what is given", "statement": "prepare_data changes nothing that can be stored as it is (numbers, booleans, None, clean strings, lists, dicts with clean names); strings only lose control characters, lists keep their elements in order, every field of a dict is there under the cleaned name with the value of the last field of that name, and a record is stored as its prepared data with its id.", "quantifier": "every input value, key and record", "why_tests_cant": "all values of all shapes", "anchors": ["splitgill/diffing.py:prepare_data", "splitgill/diffing.py:prepare_field_name", "splitgill/ingest.py:prepare_record_data"]}
{"id": "C75", "title": "every record can be parsed", "statement": "parse never raises on a stored record, whatever the options.", "quantifier": "every record, options and library behaviour", "why_tests_cant": "all records and options", "anchors": ["splitgill/indexing/parser.py:parse_dict", "splitgill/indexing/geo.py:match_hints"]}
{"id": "C76", "title": "a search at a version gives the data of that version", "statement": "After a sync, a search at any version v returns for every record with data at v exactly one hit, and rebuilding its data gives the record's data as of v (up to key order and what C35 says is lost); records without data at v are not returned.", "quantifier": "every history of ingests, commits, rollbacks, option changes and syncs, every version, every library behaviour", "why_tests_cant": "all histories of all records; ties the store, the parser, the sync and the search together", "anchors": ["splitgill/manager.py:SplitgillDatabase.sync", "splitgill/manager.py:SplitgillDatabase.search", "splitgill/search.py:rebuild_data", "splitgill/model.py:MongoRecord.iter", "splitgill/indexing/parser.py:parse"]}
{"id": "C77", "title": "the parsed record has the structure of the record", "statement": "Parsing keeps the structure: every value of a record is found at the same keys and indices of the parsed data as exactly the fields parse_value makes of it, plus the geographic data of a hint that matches; dicts become dicts, lists become lists of the same length, empty values are kept or dropped as rebuild_data expects, and nothing else is added but the geographic data of GeoJSON objects.", "quantifier": "every record (nested to any depth), options and library behaviour", "why_tests_cant": "all records of all shapes", "anchors": ["splitgill/indexing/parser.py:parse", "splitgill/indexing/parser.py:parse_dict", "splitgill/indexing/parser.py:parse_list", "splitgill/indexing/geo.py:match_hints"]}
{"id": "C78", "title": "id_query selects the record with the id", "statement": "id_query(record_id) never raises and selects the documents of the record with that id and of no other record.", "quantifier": "every record, options and id", "why_tests_cant": "all pairs of ids", "anchors": ["splitgill/search.py:id_query", "splitgill/indexing/templates.py:_get_template"]}
{"id": "C79", "title": "queries at a version select by the data of that version", "statement": "After a sync, a term query on a search at version v selects a record if and only if a value of the field in its data as of v is indexed, with the options in force at v, as the value asked for (or within the bounds of a range query); in particular records holding the value as of v are found, whatever they held before or after. Text, exists and has_geo queries too see exactly the values of v.", "quantifier": "every history of ingests, commits, rollbacks, option changes and syncs, every version, field and value", "why_tests_cant": "all histories; ties the store, parser, sync and search functions together", "anchors": ["splitgill/search.py:term_query", "splitgill/search.py:range_query", "splitgill/search.py:match_query", "splitgill/search.py:exists_query", "splitgill/search.py:has_geo", "splitgill/manager.py:SplitgillDatabase.sync", "splitgill/manager.py:SplitgillDatabase.search", "splitgill/indexing/parser.py:parse"]}
{"id": "C80", "title": "only valid geometries are indexed", "statement": "Whatever a record holds and at whatever depth, every geo shape in its parsed data is the WKT of a non-empty point, line or polygon with all coordinates in range, and every geo point is that of such a shape or its centroid; so Elasticsearch never rejects a document for its geometry.", "quantifier": "every record, options and library behaviour", "why_tests_cant": "the shapes may come from text, GeoJSON or hints anywhere in the data", "anchors": ["splitgill/indexing/geo.py:match_hints", "splitgill/indexing/geo.py:match_geojson", "splitgill/indexing/geo.py:match_wkt", "splitgill/indexing/parser.py:parse"]}
{"id": "C81", "title": "a bulk request asks for exactly its operations", "statement": "The request sent for a chunk of operations is read by Elasticsearch as those operations in that order: each index operation puts under its id (or a new one, in the archives) the version's document with its id, range of versions, parsed data and types, each delete removes the record with its id from the database's latest index, and nothing else is asked for, whatever characters ids, names and data contain.", "quantifier": "every list of operations a sync generates, every chunk of it, ids and data of any text", "why_tests_cant": "the texts come from users; only adversarial ones break the framing", "anchors": ["splitgill/indexing/index.py:IndexOp.serialise", "splitgill/indexing/index.py:DeleteOp.serialise", "splitgill/indexing/index.py:RecordVersion.create_doc", "splitgill/indexing/syncing.py:worker"]}
{"id": "C82", "title": "a lock's metadata is that of its holder", "statement": "get_metadata returns, for a lock that is held, who acquired it, when (to the millisecond) and with which keyword arguments: those of the acquire that took the lock, never those of one that was refused or has been released; it returns None, and is_locked False, exactly when nobody asked for the lock since it was last released. acquire succeeds exactly then, and otherwise returns False or raises AlreadyLocked with the lock's id, changing nothing.", "quantifier": "every sequence of acquires and releases by any number of clients, ids and keyword arguments", "why_tests_cant": "the answer depends on the whole history of calls by all clients", "anchors": ["splitgill/locking.py:LockManager.acquire", "splitgill/locking.py:LockManager.release", "splitgill/locking.py:LockManager.get_metadata", "splitgill/locking.py:LockManager.is_locked"]}
{"id": "C83", "title": "what any sync leaves behind", "statement": "After a sync or resync at any time when nothing is pending, whatever earlier syncs left in Elasticsearch, the archived versions of every record and the latest version of every record that has data are those a sync from scratch would have. The latest document of a deleted record is gone exactly if this was a sync, the record had data at the last sync and got no version of its own in between; otherwise whatever latest had of it is still there. Latest never has two documents of a record.", "quantifier": "every history of ingests, commits, rollbacks, option changes, syncs, resyncs and arc resyncs", "why_tests_cant": "the outcome depends on what several earlier syncs left behind", "anchors": ["splitgill/indexing/syncing.py:write_ops", "splitgill/manager.py:SplitgillDatabase.sync", "splitgill/indexing/index.py:generate_index_ops"]}
{"id": "C84", "title": "a record's index does not depend on other records", "statement": "If no sync ran after a record was changed and then deleted in separate commits, no resync after it was deleted, and no sync while it had pending changes on top of an unsynced commit, the indices have exactly its history and every search that returns gives exactly its data at the version asked for, whatever happened to other records, which may have pending changes at any time.", "quantifier": "every history of calls, commits, syncs, resyncs and resync_arcs, every record, every version", "why_tests_cant": "faults in other records' documents must not spread; tests do not combine them", "anchors": ["splitgill/manager.py:SplitgillDatabase.sync", "splitgill/indexing/index.py:generate_index_ops", "splitgill/search.py:version_query"]}
{"id": "C85", "title": "the indices never show data a record did not have", "statement": "Whenever syncs, resyncs and resync_arcs run, and whatever is pending when they do: every document in an arc shows the data its record has at every version of the document's range, and the ranges of the arc documents of a record have no version in common. The latest index has at most one document of a record, and it shows the data the record had at the document's version. So a search can miss a change or a deletion, but never gives made-up data.", "quantifier": "every history of calls, commits, syncs, resyncs and resync_arcs at any time, every record, every version", "why_tests_cant": "faults depend on what was pending or unsynced at each of many syncs; tests sync after every commit", "anchors": ["splitgill/manager.py:SplitgillDatabase.sync", "splitgill/manager.py:SplitgillDatabase.resync_arcs", "splitgill/indexing/index.py:generate_index_ops", "splitgill/search.py:version_query"]}
{"id": "C86", "title": "search results are data the record really had, with the real parser", "statement": "Provided that values in the records which Python considers equal are identical (no 1 next to True or 1.0) and parsing raises for none of them: whenever syncs, resyncs and resync_arcs ran, and whatever was pending, the data rebuilt from any search hit are data its record had, as of the version searched if the hit's range has an end and as of the hit's version otherwise, up to key order and what indexing forgets. For a record that no sync harmed (C84), whatever happened to others, a search after a sync gives one hit that rebuilds to its data at the version searched, and none where it has no data.", "quantifier": "every library behaviour, all record data, all options, every history of calls, commits, syncs, resyncs and resync_arcs, every version", "why_tests_cant": "needs ingest, versioning, parsing, indexing and search together, over histories with badly timed syncs", "anchors": ["splitgill/indexing/parser.py:parse", "splitgill/search.py:rebuild_data", "splitgill/manager.py:SplitgillDatabase.sync", "splitgill/indexing/index.py:generate_index_ops", "splitgill/search.py:version_query"]}
{"id": "C87", "title": "listed fields describe themselves correctly", "statement": "The properties of the field objects are right for any records: count_none, count_str, count_int, count_float, count_bool, count_list and count_dict are the numbers of records with such a value at the field's path (and is_none and so on say whether there is one), is_basic exactly if one has a scalar there, is_container exactly if one has a list or dict there, and one of both always; name is the last part of the path; is_list_element exactly for the elements of lists, is_root_field exactly for fields of the records themselves, has_children exactly if some record has something under the path. A parsed field has geo points exactly if it has geo shapes (so is_geo may look at the points alone) and text exactly if it has keywords and unparsed values; a field without text has geo data and nothing else. The counts agree too, unless a geo hint fires on a latitude that is itself parsed as a geometry.", "quantifier": "all records, all options, every library behaviour", "why_tests_cant": "is_geo relies on an invariant of the parser that only a proof covers; tests list a few fields", "anchors": ["splitgill/indexing/fields.py:DataField", "splitgill/indexing/fields.py:ParsedField", "splitgill/manager.py:SplitgillDatabase.get_data_fields", "splitgill/manager.py:SplitgillDatabase.get_parsed_fields", "splitgill/indexing/parser.py:parse"]}
{"id": "C88", "title": "what MongoDB holds reads back as the record's history", "statement": "After any history of ingest, commit and rollback calls (clock values increasing, equal ids only within a batch), the documents MongoDB holds, in which a DiffOp has become a list of a list and a dict and the versions are text under \"diffs\", read back as MongoRecords whose iteration lists the record's pending data and all its committed versions with the right data; there is one document for a record that exists and none otherwise. The operations that ingest and rollback compute from what is read (paths of $set and $unset included) leave the documents that the model of C10-C17 has, for any calls whatsoever. Patching with the operations of a diff as read back gives what patching with the diff itself gives.", "quantifier": "every history of calls, all data", "why_tests_cant": "the tests use a few records; the tuples of DiffOp become lists in MongoDB, which only shows when the operations are read back, over all kinds of changes", "anchors": ["splitgill/model.py:MongoRecord.iter", "splitgill/ingest.py:generate_ops", "splitgill/ingest.py:revert_record", "splitgill/diffing.py:patch", "splitgill/diffing.py:DiffOp"]}
{"id": "C89", "title": "ingest only writes what MongoDB can store", "statement": "Whatever records are ingested, what is written to MongoDB can be stored: integers of 64 bits, text without surrogates, field names without the character 0, and documents nested no deeper than the server's limit.", "quantifier": "all records, every history of calls", "why_tests_cant": "needs the invariants of diff and patch over all histories; the cleaning of values hides which inputs can fail", "anchors": ["splitgill/diffing.py:prepare_data", "splitgill/ingest.py:prepare_record_data", "splitgill/ingest.py:generate_ops", "splitgill/manager.py:SplitgillDatabase.ingest"]}
{"id": "C90", "title": "a record that could be added can be deleted", "statement": "Whenever a record has been added and committed it can be deleted (a record with no data is ingested for it) without an error from MongoDB, and then its history is kept and it has no data; a record that was never committed is gone.", "quantifier": "all records, every history of calls, every nesting limit", "why_tests_cant": "depends on how the data is wrapped when it moves into the history of the record; tests use shallow data", "anchors": ["splitgill/ingest.py:generate_ops", "splitgill/diffing.py:diff", "splitgill/manager.py:SplitgillDatabase.ingest"]}
{"id": "C91", "title": "committed versions survive concurrent processes", "statement": "When several processes ingest, roll back and commit on one database at the same time, the versions that a commit has given to records stay as they are: afterwards each record has one document, which lists exactly the versions and data that the commits gave it.", "quantifier": "every interleaving of the reads, writes and commits of any number of processes, all data", "why_tests_cant": "only commit takes the lock; what happens depends on where a commit falls between the reading and the writing of another process", "anchors": ["splitgill/manager.py:SplitgillDatabase.commit", "splitgill/manager.py:SplitgillDatabase.ingest", "splitgill/manager.py:SplitgillDatabase.rollback_records", "splitgill/ingest.py:generate_ops", "splitgill/ingest.py:generate_rollback_ops"]}
{"id": "C92", "title": "a sync that runs during a commit does no lasting harm", "statement": "When a sync runs while a commit is going on, it indexes each record as it was before or after the commit, and the next sync brings the indices in line with what has been committed.", "quantifier": "all states of the database and the indices, every way in which the records seen can be from before and after the commit", "why_tests_cant": "depends on the moment at which the cursor of sync gets to each document; sync takes no lock", "anchors": ["splitgill/manager.py:SplitgillDatabase.sync", "splitgill/manager.py:SplitgillDatabase.iter_records", "splitgill/manager.py:SplitgillDatabase.get_elasticsearch_version", "splitgill/manager.py:SplitgillDatabase.commit"]}
{"id": "C93", "title": "a commit that is interrupted is all or nothing", "statement": "When a commit is interrupted, because its process ends or the connection is lost, either nothing or everything has been committed: the records and options that were waiting never get different versions, a sync is still possible, and another commit can complete what is left without harm to any record's history.", "quantifier": "every state that calls can reach, every moment at which the commit is interrupted, every set of documents that its updates have reached by then, all later calls", "why_tests_cant": "needs a failure in the middle of an update of many documents; tests run commits to their end", "anchors": ["splitgill/manager.py:SplitgillDatabase.commit"]}
{"id": "C94", "title": "syncs at the same time do what one does", "statement": "When several processes sync a database at the same time, the indices are afterwards as after one sync: every search, at the latest version or an older one, finds the same documents once.", "quantifier": "all states of the database and the indices, any number of processes, every order in which their writes arrive", "why_tests_cant": "sync takes no lock; each process decides what to write from what it can find, and nothing that the others write can be found until one of them ends", "anchors": ["splitgill/manager.py:SplitgillDatabase.sync", "splitgill/manager.py:SplitgillDatabase.get_arc_status", "splitgill/manager.py:SplitgillDatabase.get_elasticsearch_version", "splitgill/indexing/index.py:generate_index_ops", "splitgill/indexing/syncing.py:write_ops"]}
{"id": "C95", "title": "a record that cannot be parsed does not keep the others from the index", "statement": "When some record cannot be parsed for indexing, a sync still indexes the others, and once the record has been corrected or deleted syncs work again; the older versions that were searchable stay so.", "quantifier": "all histories of calls, all options, every parser that raises for some data, every part of the writes that is carried out before the sync raises", "why_tests_cant": "the sync rebuilds the whole history of a record, with all options that ever were; a test with one bad record does not show that no later call can repair it", "anchors": ["splitgill/manager.py:SplitgillDatabase.sync", "splitgill/manager.py:SplitgillDatabase.resync_arcs", "splitgill/indexing/index.py:generate_index_ops", "splitgill/indexing/index.py:IndexedRecord", "splitgill/indexing/syncing.py:write_ops", "splitgill/indexing/parser.py:parse"]}
{"id": "C96", "title": "a text in one of the date formats of the options is indexed as its date", "statement": "When a date format has been added to the options, a text that writes a date or time in that format is indexed as that moment, in UTC if the format has no offset; what the format leaves out is January, the first, midnight.", "quantifier": "all formats made of the directives %Y %m %d %H %M %S %f %z, white space and other characters, all moments, all texts that write them, all other formats in the options", "why_tests_cant": "formats form an unbounded language, and a set of formats is tried in an order the program does not fix", "anchors": ["splitgill/indexing/options.py:ParsingOptionsBuilder.with_date_format", "splitgill/indexing/parser.py:parse_value", "splitgill/utils.py:parse_to_timestamp"]}
{"id": "C97", "title": "options that are accepted can be used", "statement": "Formats for dates and floats that the options builder accepts can be used: adding one to the options of a database does not keep records from being indexed that could be indexed before.", "quantifier": "all formats, all options, all records, all orders of the set of formats, all histories of calls", "why_tests_cant": "formats are not looked at until a record is parsed; whether parsing raises depends on the order of a set, and that nothing repairs a database afterwards is a statement about all later calls", "anchors": ["splitgill/indexing/options.py:ParsingOptionsBuilder.with_date_format", "splitgill/indexing/options.py:ParsingOptionsBuilder.with_float_format", "splitgill/indexing/parser.py:parse_value", "splitgill/manager.py:SplitgillDatabase.update_options", "splitgill/manager.py:SplitgillDatabase.sync"]}
{"id": "C98", "title": "a database whose records have 500 fields can be indexed", "statement": "The limit on the number of fields of an index leaves room for records with 500 fields between them: all of them are indexed, and which data types their values have does not matter.", "quantifier": "all sets of records, all values, all options, all orders in which the documents are put into the index", "why_tests_cant": "the limit counts the fields that parsing makes of values, summed over all records ever indexed; no set of examples shows how many fields of a record are always within it", "anchors": ["splitgill/indexing/templates.py:_get_template", "splitgill/indexing/parser.py:parse", "splitgill/indexing/parser.py:parse_value"]}
{"id": "C99", "title": "a record can be changed any number of times", "statement": "Whatever changes have been made to a record before, it can be changed again and the change committed, as long as the new data could be stored as a new record.", "quantifier": "all histories of ingests, commits and rollbacks, all records, all data", "why_tests_cant": "a document of MongoDB is limited in size and has the whole history of its record; how long a history may be, and that no history may be longer, are statements about all histories, far longer ones than tests make", "anchors": ["splitgill/ingest.py:generate_ops", "splitgill/ingest.py:prepare_record_data", "splitgill/diffing.py:diff", "splitgill/manager.py:SplitgillDatabase.commit", "splitgill/manager.py:SplitgillDatabase.ingest"]}
{"id": "C100", "title": "requests for the indices are small enough", "statement": "However large the records of a database are, as long as MongoDB takes them each request in which a sync or resync sends their documents to Elasticsearch is within the limit on the size of requests (100 MB by default), so that the sync does not fail for it.", "quantifier": "all records, all sets of records, all options, all databases and numbers of operations in a request", "why_tests_cant": "requests are made of a number of operations, whatever their sizes; tests use small records, and what a document takes depends on everything that parsing adds to the data", "anchors": ["splitgill/indexing/syncing.py:write_ops_async", "splitgill/indexing/syncing.py:worker", "splitgill/indexing/syncing.py:BulkOptions", "splitgill/indexing/index.py:generate_index_ops", "splitgill/indexing/index.py:IndexOp", "splitgill/utils.py:partition"]}
