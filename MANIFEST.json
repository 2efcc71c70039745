{
 "claims": [
  {
   "property": "C01",
   "status": "proved",
   "theorems": [
    "C01_diff_patch_roundtrip"
   ],
   "note": "all dicts with distinct keys, arbitrary nesting"
  },
  {
   "property": "C02",
   "status": "proved",
   "theorems": [
    "C02_diff_empty_iff_equal",
    "C02_diff_empty_iff_same",
    "C02_diff_raises"
   ],
   "note": "termination of the work queue, empty iff equal, every op non-empty"
  },
  {
   "property": "C03",
   "status": "proved",
   "theorems": [
    "C03_patch_no_mutation",
    "C03_patch_h_refines_patch"
   ],
   "note": "heap model with sharing; also when patch raises"
  },
  {
   "property": "C04",
   "status": "partial",
   "theorems": [
    "C04_type_exact_roundtrip_refuted",
    "C04_type_exact_roundtrip_partial",
    "C04_exact"
   ],
   "note": "REFUTED as stated (1 vs True vs 1.0 compare equal). C04_exact says for all data what the patched data is at every place, and that it is new including types iff no scalar was replaced, at its place, by an equal one of another type."
  },
  {
   "property": "C05",
   "status": "partial",
   "theorems": [
    "C05_prepare_normalises_refuted",
    "C05_prepare_normalises_partial",
    "C05_prepared_keys_distinct",
    "C05_exact"
   ],
   "note": "REFUTED for objects handled by the str() fallback, whose text is not cleaned. C05_exact: storable, and idempotent, exactly when every fallback text that is kept is clean."
  },
  {
   "property": "C06",
   "status": "proved",
   "theorems": [
    "C06_field_names_clean"
   ],
   "note": "every key and string, over any character tables in which _ - and ASCII digits/letters used are visible"
  },
  {
   "property": "C07",
   "status": "partial",
   "theorems": [
    "C07_no_field_lost_refuted",
    "C07_no_field_lost_partial",
    "C07_exact"
   ],
   "note": "REFUTED: a.b and a_b collide. C07_exact: for every dict which value each stored name has, and that fields are lost exactly when two get one name."
  },
  {
   "property": "C08",
   "status": "proved",
   "theorems": [
    "C08_id_always_set"
   ],
   "note": ""
  },
  {
   "property": "C09",
   "status": "proved",
   "theorems": [
    "C09_partition"
   ],
   "note": ""
  },
  {
   "property": "C10",
   "status": "proved",
   "theorems": [
    "C10_versioned_store",
    "C10_versioned_store_type_exact",
    "C10_record"
   ],
   "note": "Refinement of the abstract store in Store.v for every history of ingest/commit/rollback with increasing clock; ids repeat only within a batch of 200 (see C13). Second theorem: type-exact version. Third: what a stored record says about its versions, whether it is deleted and whether it has a history (MongoRecord's methods)."
  },
  {
   "property": "C11",
   "status": "proved",
   "theorems": [
    "C11_rollback_from_crash"
   ],
   "note": "Any stream (no batching condition), any number of ingests/rollbacks stopped after any number of writes, then rollback."
  },
  {
   "property": "C12",
   "status": "partial",
   "theorems": [
    "C12_reingest_noop_refuted",
    "C12_reingest_noop_partial",
    "C12_writes_exact",
    "C12_reingest_after_commit",
    "C12_reingest_pending"
   ],
   "note": "REFUTED as stated: a record with history and pending data is rewritten when its pending data is ingested again. C12_writes_exact says, for every state and stream, for exactly which ids a write is generated; a whole stream ingested again after its commit writes nothing; ingesting it twice before the commit shows the same."
  },
  {
   "property": "C13",
   "status": "partial",
   "theorems": [
    "C13_last_occurrence_wins_refuted",
    "C14_last_occurrence_within_batches",
    "C13_exact",
    "C13_few_exact",
    "C13_none_waiting_partial",
    "C13_all_written_partial"
   ],
   "note": "REFUTED: an id repeated in a later find batch is inserted twice and a delete is lost (201 record witness). C13_exact: for every stream and state what each record is afterwards; C13_few_exact: the same in closed form for streams of fewer than 200 operations; proved as stated when no write waits for an id of a batch that is read, in particular when all records of full batches are written. C14: ids repeated within a batch only."
  },
  {
   "property": "C14",
   "status": "proved",
   "theorems": [
    "C14_last_occurrence_within_batches"
   ],
   "note": ""
  },
  {
   "property": "C15",
   "status": "partial",
   "theorems": [
    "C15_commit_one_version_refuted",
    "C15_commit_exact",
    "C15_commit_one_version_partial"
   ],
   "note": "REFUTED for clients with several databases: a commit also commits (and reacts to) the pending options of other databases. C15_commit_exact says exactly what every commit does; C15_commit_one_version_partial is the claim when no other database has pending options."
  },
  {
   "property": "C16",
   "status": "proved",
   "theorems": [
    "C16_histories_well_formed"
   ],
   "note": ""
  },
  {
   "property": "C17",
   "status": "partial",
   "theorems": [
    "C17_clock_refuted",
    "C17_older_refuted",
    "C16_histories_well_formed",
    "C17_timely_partial",
    "C17_exact"
   ],
   "note": "REFUTED: equal clock values lose a version, can falsify older ones and make the record unreadable; a backwards clock breaks the order. C17_exact: the versions are in order after every call exactly if every commit's version is greater than those of the records it commits (other records do not matter); C17_timely_partial: then the history is that of C10."
  },
  {
   "property": "C18",
   "status": "partial",
   "theorems": [
    "C18_never_backwards_refuted",
    "C18_never_backwards_partial",
    "C18_committed_version_partial",
    "C18_committed_version_exact",
    "C18_lowered_by_pending",
    "C18_commit_is_reported"
   ],
   "note": "REFUTED: pending new data of the newest record hides its committed version. C18_committed_version_exact gives the value in every state; C18_lowered_by_pending says that it is lowered only while every record with the newest version is pending. Between moments without pending data it is the greatest committed version and never goes backwards."
  },
  {
   "property": "C19",
   "status": "partial",
   "theorems": [
    "C19_options_exist_refuted",
    "C19_options_exist_partial",
    "C19_exact"
   ],
   "note": "REFUTED for the second database of a client, which never gets default options. C19_exact: which databases have options after a commit, for every state."
  },
  {
   "property": "C20",
   "status": "partial",
   "theorems": [
    "C20_isolation_refuted",
    "C20_isolation_partial",
    "C20_isolation_exact"
   ],
   "note": "REFUTED for pending options: any call on another database discards or commits them. Proved: data and committed options are always isolated, everything is when the database has no pending options, and exactly what becomes of pending options (C20_isolation_exact)."
  },
  {
   "property": "C21",
   "status": "proved",
   "theorems": [
    "C21_mutual_exclusion",
    "C21_without_politeness_refuted"
   ],
   "note": "Any number of processes, nested locks, crashes, every interleaving of the atomic insert_one/delete_one. Direct release() calls are allowed only when nobody is inside (the second theorem shows why)."
  },
  {
   "property": "C22",
   "status": "proved",
   "theorems": [
    "C22_lock_freed",
    "C22_free_without_crashes",
    "C22_leaving_frees"
   ],
   "note": "Exact condition for a lock to be taken, crashes included."
  },
  {
   "property": "C23",
   "status": "proved",
   "theorems": [
    "C23_documents_cover_life"
   ],
   "note": "Any parser, any equality on parsed data."
  },
  {
   "property": "C24",
   "status": "partial",
   "theorems": [
    "C24_options_in_force_refuted",
    "C24_options_in_force_partial",
    "C24_options_used_exact"
   ],
   "note": "REFUTED: options committed after the first ones and before a record's first version are ignored for that record. C24_options_used_exact says exactly which options are used; C24_options_in_force_partial is the claim when no such options exist."
  },
  {
   "property": "C25",
   "status": "proved",
   "theorems": [
    "C25_full_sync_exact"
   ],
   "note": "Any history of calls with increasing commit times, syncs and resyncs before; nothing pending and options exist at the moment of the sync (C19, C56 say what happens otherwise). Any parser satisfying [pipeline]."
  },
  {
   "property": "C26",
   "status": "partial",
   "theorems": [
    "C26_incremental_refuted",
    "C26_incremental_partial",
    "C27_incremental_each_commit",
    "C83_any_sync"
   ],
   "note": "REFUTED: a record changed and then deleted between two syncs stays in latest. Proved for every history of syncs and resyncs in which that does not happen; C83_any_sync says exactly how an incremental sync differs from one from scratch in all histories."
  },
  {
   "property": "C27",
   "status": "proved",
   "theorems": [
    "C27_incremental_each_commit"
   ],
   "note": "Histories may also contain resyncs."
  },
  {
   "property": "C28",
   "status": "partial",
   "theorems": [
    "C28_deleted_leaves_latest_refuted",
    "C28_deleted_leaves_latest_partial",
    "C83_any_sync"
   ],
   "note": "REFUTED by the same history as C26; proved when each commit is synced or no record is changed and then deleted between syncs; C83_any_sync says exactly when the document of a deleted record leaves latest."
  },
  {
   "property": "C29",
   "status": "proved",
   "theorems": [
    "C29_sync_idempotent"
   ],
   "note": "After any sequence of calls, syncs, resyncs and resync_arcs that returned."
  },
  {
   "property": "C30",
   "status": "partial",
   "theorems": [
    "C30_search_refuted",
    "C30_search_exact_partial",
    "C30_search_all_partial",
    "C30_shortcut_agrees",
    "C84_record_alone"
   ],
   "note": "REFUTED: when all records are deleted before the first sync the latest index does not exist and a search at the current version raises. Proved: every search that returns is exact, and the shortcut agrees with the filter; C84_record_alone needs the condition on deletions for the record asked for only."
  },
  {
   "property": "C31",
   "status": "proved",
   "theorems": [
    "C31_arcs_filled_in_order"
   ],
   "note": "After any sequence of successful events, for every capacity."
  },
  {
   "property": "C32",
   "status": "proved",
   "theorems": [
    "C32_version_rounding"
   ],
   "note": "Every content of the indices."
  },
  {
   "property": "C33",
   "status": "partial",
   "theorems": [
    "C33_changed_counts_refuted",
    "C33_changed_counts_exact",
    "C33_changed_counts_partial"
   ],
   "note": "REFUTED: at a version where one record is changed and another one added the additions are not counted. C33_changed_counts_exact says exactly what is counted."
  },
  {
   "property": "C34",
   "status": "proved",
   "theorems": [
    "C34_terms",
    "C34_versions"
   ],
   "note": "For any totally ordered value type; composite aggregation pages as documented by Elasticsearch; the documents do not change during the iteration."
  },
  {
   "property": "C35",
   "status": "partial",
   "theorems": [
    "C35_rebuild_refuted",
    "C35_rebuild_forgets",
    "C35_rebuild_partial"
   ],
   "note": "REFUTED: empty lists/dicts vanish and empty strings in lists become None; C35_rebuild_forgets gives the exact result for every prepared record, C35_rebuild_partial equality for records without those"
  },
  {
   "property": "C36",
   "status": "proved",
   "theorems": [
    "C36_parse_value"
   ],
   "note": "for any behaviour of the libraries (str.lower, float format, try_float, strptime, WKT)"
  },
  {
   "property": "C37",
   "status": "partial",
   "theorems": [
    "C37_data_types_refuted",
    "C37_parsed_types_refuted",
    "C37_data_types_partial",
    "C37_parsed_types_partial",
    "C37_exact"
   ],
   "note": "REFUTED for nested field names starting with # (data types) and nested _id (parsed types): the same path gets two entries. Proved for all other records; and for all records, every type that occurs is listed by exactly one entry, and a path has several entries exactly if something written between its types occurs elsewhere (C37_exact)."
  },
  {
   "property": "C38",
   "status": "partial",
   "theorems": [
    "C38_cache_refuted",
    "C38_cache_partial",
    "C38_cache_defaults_partial",
    "C38_exact"
   ],
   "note": "REFUTED: -0.0 after 0.0 gets the cached result of 0.0. Proved for all other values, any history of calls, evictions and hint copies, now and later; the date formats must agree where several accept the value (always so for the default formats). C38_exact: what is returned for every value and all options."
  },
  {
   "property": "C39",
   "status": "partial",
   "theorems": [
    "C39_order_refuted",
    "C39_value_partial",
    "C39_record_partial",
    "C39_defaults_partial",
    "C39_exact"
   ],
   "note": "REFUTED: with %d/%m/%Y and %m/%d/%Y the iteration order decides. Proved for whole records when formats accepting the same text agree, and unconditionally for the default formats (order of the other sets included). C39_exact: for a value the order is without effect iff the formats accepting it agree."
  },
  {
   "property": "C40",
   "status": "proved",
   "theorems": [
    "C40_roundtrip",
    "C40_hints",
    "C40_keyword",
    "C40_others",
    "C40_built_roundtrip"
   ],
   "note": "Every field of built options is characterised by the calls; the document round trip is for frozensets, i.e. lists without repetition (hints: without repeated latitude field)."
  },
  {
   "property": "C41",
   "status": "partial",
   "theorems": [
    "C41_update_options_refuted",
    "C41_update_options_partial",
    "C41_differs_partial"
   ],
   "note": "REFUTED: hints that differ in longitude, radius or segments only are taken to be equal and not stored. Proved: options are stored, and are the latest after the next commit, exactly when another field or the set of latitude fields differs."
  },
  {
   "property": "C42",
   "status": "proved",
   "theorems": [
    "C42_terminates",
    "C42_exactly_once"
   ],
   "note": "Transition system of write_ops_async and its workers: any interleaving, stream, chunk size >= 1, worker count >= 1 and buffer size. With worker_count 0 write_ops hangs (C42_no_workers_hangs)."
  },
  {
   "property": "C43",
   "status": "partial",
   "theorems": [
    "C43_error_reported_refuted",
    "C43_never_returns",
    "C43_error_reported_partial",
    "C43_hangs_after_last_chunk"
   ],
   "note": "REFUTED: a failure after the last chunk was queued makes write_ops wait for ever. Proved: it never returns normally after an error; it raises if chunks are left to queue and a worker survives; otherwise it hangs."
  },
  {
   "property": "C44",
   "status": "proved",
   "theorems": [
    "C44_any_order"
   ],
   "note": "Any permutation of the operations of any sync."
  },
  {
   "property": "C45",
   "status": "partial",
   "theorems": [
    "C45_timeouts_refuted",
    "C45_timeouts_general",
    "C45_timeouts_partial",
    "C45_attempts",
    "C45_attempts_counted"
   ],
   "note": "REFUTED: arc documents of a timed out but applied request are duplicated. Proved for every schedule and timeout pattern: latest is right and the extra arc documents are exactly those of the timed out requests. A request is given up only after four timeouts."
  },
  {
   "property": "C46",
   "status": "partial",
   "theorems": [
    "C46_resync_exact_refuted",
    "C46_resync_general",
    "C46_resync_exact_partial"
   ],
   "note": "REFUTED: a record deleted since the last sync stays in latest after a resync. C46_resync_general says exactly what a resync does to any content of the indices."
  },
  {
   "property": "C47",
   "status": "partial",
   "theorems": [
    "C47_then_sync_refuted",
    "C47_resync_arcs",
    "C47_up_to_date_partial",
    "C47_then_sync_exact",
    "C47_then_sync_exactly"
   ],
   "note": "The first half is proved for every state. REFUTED second half: after resync_arcs with an unsynced commit the next sync does nothing, or only part. Exactly: a record's document in latest is brought up to date iff it begins after everything to be seen in the indices after resync_arcs; otherwise it stays as it was. Nothing is missing when everything was synced before."
  },
  {
   "property": "C48",
   "status": "partial",
   "theorems": [
    "C48_delete_refuted",
    "C48_delete_partial"
   ],
   "note": "REFUTED: ids with quotes, backslashes or control characters are not escaped; the delete then goes to another record or index, or the line is not JSON. Proved: exact precisely for names and ids without such characters."
  },
  {
   "property": "C49",
   "status": "partial",
   "theorems": [
    "C49_exact_refuted",
    "C49_exact_partial"
   ],
   "note": "REFUTED: 1.001 s gives 1000. Proved: exact in 1833..2106 except for whole milliseconds, which may lose one; never more than 1 ms off. Uses the axioms of the standard reals (Flocq)."
  },
  {
   "property": "C50",
   "status": "proved",
   "theorems": [
    "C50_monotone",
    "C50_calendar",
    "C50_equal",
    "C50_now_monotone",
    "C50_now_ms"
   ],
   "note": "Uses the axioms of the standard reals (Flocq). Both ways in which Python computes timestamps are modelled (one division for aware datetimes, seconds + us/1e6 for naive ones); within 8192 s of the epoch they can give different timestamps for one moment (C50_kinds_refuted)."
  },
  {
   "property": "C51",
   "status": "partial",
   "theorems": [
    "C51_names_distinct",
    "C51_wildcards_refuted",
    "C51_wildcards_partial",
    "C51_dashless_partial"
   ],
   "note": "REFUTED for wildcards: data-a-* selects the indices of a-b; with a database a-arc-b, get_arc_status of a raises and resync of a deletes indices of a-arc-b. Proved: exactly which databases the wildcards reach; nothing is shared between names without dashes; index and collection names are always distinct."
  },
  {
   "property": "C52",
   "status": "proved",
   "theorems": [
    "C52_filter",
    "C52_others",
    "C52_version"
   ],
   "note": "Query semantics of term/terms/bool on _index and the range field as documented; _index matches names only (not aliases)."
  },
  {
   "property": "C53",
   "status": "proved",
   "theorems": [
    "C53_term",
    "C53_subfield",
    "C53_range_raises",
    "C53_range_bounds",
    "C53_range"
   ],
   "note": "Term and range queries are characterised on records prepared and parsed by the model; a range also raises when the type must be inferred from a first bound of an unsupported type."
  },
  {
   "property": "C54",
   "status": "partial",
   "theorems": [
    "C54_data_fields",
    "C54_parsed_fields",
    "C54_data_records_partial",
    "C54_parsed_records_partial",
    "C54_fields_found",
    "C54_data_counts_exact",
    "C54_parsed_counts_exact",
    "C54_count_refuted"
   ],
   "note": "Proved for all records: which fields and types are listed, each path once, how they are linked (C54_fields_found), and that the count of every type is the number of records that have it there. REFUTED for the count of the field as a whole: a record with a nested field name starting with # (data fields) or a nested _id (parsed fields) can be counted twice. It is proved never to be too low, and right exactly if no record has something written between the types of the field (C54_data_counts_exact, C54_parsed_counts_exact)."
  },
  {
   "property": "C55",
   "status": "proved",
   "theorems": [
    "C55_only_committed_visible",
    "C55_search_committed"
   ],
   "note": "Any sequence of calls, syncs, resyncs, failures after any part of the writes, and refreshes."
  },
  {
   "property": "C56",
   "status": "partial",
   "theorems": [
    "C56_sync_while_pending_refuted",
    "C56_sync_while_pending_partial",
    "C84_record_alone",
    "C84_pending_untouched"
   ],
   "note": "REFUTED: the superseded version is never archived. Proved when the pending records have no unsynced committed version, for all records together and (C84) for each record by itself."
  },
  {
   "property": "C57",
   "status": "partial",
   "theorems": [
    "C57_repeat_refuted",
    "C57_failed_invisible",
    "C57_repeat_general",
    "C57_repeat_exact_partial",
    "C57_writer_states"
   ],
   "note": "Invisibility proved for every state. REFUTED repeatability: arc documents written before the failure are written again. C57_repeat_general says exactly what the repetition leaves."
  },
  {
   "property": "C58",
   "status": "partial",
   "theorems": [
    "C58_dates_refuted",
    "C58_dates_partial",
    "C58_field_partial",
    "C58_built_partial",
    "C58_exact"
   ],
   "note": "REFUTED where strftime does not pad years (glibc): dates before the year 1000 are not indexed as dates. C58_exact: for every date and both behaviours of strftime what is indexed; any order of the default formats."
  },
  {
   "property": "C59",
   "status": "partial",
   "theorems": [
    "C59_orientation",
    "C59_start_vertex",
    "C59_translation",
    "C59_reversal",
    "C59_float_partial",
    "C59_float_refuted",
    "C59_dimensions_refuted"
   ],
   "note": "Over exact rationals, as stated. With binary64 arithmetic, and the sum of Python before and since 3.12, the winding is right for all rings in range whose area exceeds a rounding error given explicitly (C59_float_partial); below it a correctly wound ring can be rejected (C59_float_refuted). Three dimensional coordinates raise (C59_dimensions_refuted)."
  },
  {
   "property": "C60",
   "status": "partial",
   "theorems": [
    "C60_concurrent_ingests_refuted",
    "C60_concurrent_ingests_partial",
    "C60_shared_partial"
   ],
   "note": "REFUTED for a new record in both ingests: two documents. Proved for disjoint ids, every interleaving of lookups and bulk writes; and for shared ids of records with history (C60_shared_partial: any number of ingests and rollbacks at once leave one document, its history, and as pending data what was pending or what one of them brought). Missing: which of them, as it depends on the order of the writes"
  },
  {
   "property": "C61",
   "status": "proved",
   "theorems": [
    "C61_ingest_counts",
    "C61_ingest_counts_any_stream"
   ],
   "note": "Exact counts for streams whose ids repeat only within a batch; the document count equation for every stream."
  },
  {
   "property": "C62",
   "status": "partial",
   "theorems": [
    "C62_every_change_refuted",
    "C62_every_change_partial",
    "C62_every_change_plain_partial",
    "C62_types_partial",
    "C62_outside_lists_partial",
    "C62_documents_partial"
   ],
   "note": "REFUTED: [None, ''] and ['', None] parse equally. Proved: a change of the types found at any place is seen, and changes can only be lost inside of lists: if the lists of both versions hold no empty strings, lists and dicts, every change gives another document, for every history and all options (C62_documents_partial; fields outside of lists may be empty). Missing: changes inside of lists that hold empty values"
  },
  {
   "property": "C63",
   "status": "partial",
   "theorems": [
    "C63_blank_refuted",
    "C63_blank_partial",
    "C63_exact"
   ],
   "note": "REFUTED for with_true_value and with_false_value: the empty string is added (C63_exact: unless it is there already). Proved for None, date formats and hints."
  },
  {
   "property": "C64",
   "status": "proved",
   "theorems": [
    "C64_templates"
   ],
   "note": "Patterns and priorities; the contents of the templates are not modelled."
  },
  {
   "property": "C65",
   "status": "partial",
   "theorems": [
    "C65_shapes_valid",
    "C65_shapes_partial",
    "C65_wkt_refuted",
    "C65_float_coordinates"
   ],
   "note": "REFUTED in part: well known text that does not begin exactly with the name and one space ('POINT(3 4)', ' POINT (3 4)') is not recognised, as the regex asks for that. Proved: everything indexed is valid, and GeoJSON, hints and WKT that begin as the regex asks are indexed exactly when valid. For any behaviour of shapely, pyproj and fastnumbers and any number type; the winding test is the computed one (see C59 for what it means)."
  },
  {
   "property": "C66",
   "status": "partial",
   "theorems": [
    "C66_geojson_refuted",
    "C66_geojson_partial",
    "C66_parse_refuted",
    "C66_parse_partial"
   ],
   "note": "REFUTED where shapely reads three dimensional GeoJSON (depends on the version of GEOS): is_winding_valid unpacks pairs and raises ValueError, so the record cannot be parsed. Proved when polygons are two dimensional."
  },
  {
   "property": "C67",
   "status": "partial",
   "theorems": [
    "C67_order_refuted",
    "C67_order_partial"
   ],
   "note": "REFUTED: the documentation of iter_terms is wrong. Proved: ascending order of the values, for every chunk size."
  },
  {
   "property": "C68",
   "status": "partial",
   "theorems": [
    "C68_string_refuted",
    "C68_empty_refuted",
    "C68_date_refuted",
    "C68_naive_refuted",
    "C68_found_partial",
    "C68_date_partial",
    "C68_range_between_partial"
   ],
   "note": "REFUTED for strings longer than the keyword length, the empty string, (machine not on UTC) dates and naive datetimes, and naive datetimes near the epoch on any machine. Proved for the other strings, booleans, numbers, aware datetimes, and dates and naive datetimes (8192 s from the epoch on, or whole seconds) on UTC machines with the default formats."
  },
  {
   "property": "C69",
   "status": "proved",
   "theorems": [
    "C69_parsed_path",
    "C69_fields"
   ],
   "note": "For each record, and in terms of the listed fields for all records."
  },
  {
   "property": "C70",
   "status": "proved",
   "theorems": [
    "C70_types",
    "C70_no_conflict",
    "C70_records"
   ],
   "note": "Field types take only the kinds of values they are meant for (no coercion). The limit on the number of fields of an index is not modelled."
  },
  {
   "property": "C71",
   "status": "partial",
   "theorems": [
    "C71_keyword_refuted",
    "C71_keyword_partial",
    "C71_too_long"
   ],
   "note": "REFUTED: the builder accepts up to 32766 characters, which can be four times as many bytes. Proved up to 8191 characters (the default); C71_too_long: false for all options with a greater length."
  },
  {
   "property": "C72",
   "status": "proved",
   "theorems": [
    "C72_all_text",
    "C72_field"
   ],
   "note": "Which texts are searched; how Elasticsearch analyses them is not modelled."
  },
  {
   "property": "C73",
   "status": "proved",
   "theorems": [
    "C73_exists",
    "C73_has_geo"
   ],
   "note": "GeoJSON objects are taken to have a type, and points a latitude that is a value (shapely needs both)."
  },
  {
   "property": "C74",
   "status": "proved",
   "theorems": [
    "C74_storable_unchanged",
    "C74_names",
    "C74_content",
    "C74_record"
   ],
   "note": "The relation [becomes] is written without the functions of the model; the texts of dates are those of C58."
  },
  {
   "property": "C75",
   "status": "partial",
   "theorems": [
    "C75_parse_refuted",
    "C75_raises_exactly",
    "C75_parse_partial"
   ],
   "note": "REFUTED: coordinates given as lists of one number make a hint match (shapely squeezes its arguments) and parsing raises TypeError. Three dimensional GeoJSON is the other cause (C66). C75_raises_exactly is the exact condition. C75_parse_partial: data with no latitude that is a list and no GeoJSON that raises is always parsed, for libraries that make no point of None, an empty string, an empty list or a dict as a latitude."
  },
  {
   "property": "C76",
   "status": "partial",
   "theorems": [
    "C76_search_data_partial",
    "C76_search_parsed_partial",
    "C76_search_data_refuted",
    "C76_all_parsed",
    "C76_records",
    "C76_geo_keyed"
   ],
   "note": "REFUTED: a value changed to one Python considers equal (1 to True) shows the newer value in searches at the older version. Proved for histories over scalars that are equal only if identical, whose data is parsed without raising (C75; C76_all_parsed gives data of which this holds), with the conditions on syncs of C26/C27 and libraries that read dicts by key (C76_geo_keyed: the code of geo.py adds nothing to this)."
  },
  {
   "property": "C77",
   "status": "proved",
   "theorems": [
    "C77_fields",
    "C77_items",
    "C77_blanks",
    "C77_containers",
    "C77_geojson",
    "C77_nothing_else"
   ],
   "note": "For libraries that make points only of latitudes that are values (otherwise parsing raises, C75). What parse_value makes of a value are C36 and C39; one hint for each latitude field is C40."
  },
  {
   "property": "C78",
   "status": "partial",
   "theorems": [
    "C78_id_partial",
    "C78_case_refuted",
    "C78_long_refuted"
   ],
   "note": "REFUTED: ids that differ only in case are both selected (keyword fields are lowercased) and ids longer than the keyword length are not found. Proved: the exact condition, so the claim holds for ids without control characters up to the keyword length that differ after lowercasing."
  },
  {
   "property": "C79",
   "status": "partial",
   "theorems": [
    "C79_term_partial",
    "C79_range_partial",
    "C79_presence_partial",
    "C79_found_partial",
    "C79_term_refuted"
   ],
   "note": "REFUTED as C76 (1 changed to True). Proved with the conditions of C76, for term, range, text, exists and has_geo queries."
  },
  {
   "property": "C80",
   "status": "proved",
   "theorems": [
    "C80_indexed_shapes"
   ],
   "note": "For any behaviour of shapely, pyproj and fastnumbers and both versions of Python's sum. That the centroid of a valid shape is valid is geometry of shapely; that shapely writes what it read is assumed."
  },
  {
   "property": "C81",
   "status": "partial",
   "theorems": [
    "C81_bulk_partial",
    "C81_bulk_refuted",
    "C81_json",
    "C81_prepared"
   ],
   "note": "REFUTED: ids are written into deletes unescaped; deleting a record of one database whose id holds a quote and a newline deletes a record of another database. Proved for chunks in which deleted ids have no quotes, backslashes or control characters; ids, text and field names elsewhere may hold any characters without surrogates and integers fit in 64 bits (which holds of prepared data, C81_prepared). orjson, the client's line framing and Elasticsearch's reading of bulk bodies are modelled from their documentation."
  },
  {
   "property": "C82",
   "status": "proved",
   "theorems": [
    "C82_metadata",
    "C82_acquire",
    "C82_refines"
   ],
   "note": "The clients' calls are taken in the order MongoDB does them; locked_by and data are taken to be read back as written."
  },
  {
   "property": "C83",
   "status": "proved",
   "theorems": [
    "C83_any_sync",
    "C83_latest"
   ],
   "note": ""
  },
  {
   "property": "C84",
   "status": "proved",
   "theorems": [
    "C84_record_alone",
    "C84_pending_untouched"
   ],
   "note": "Conditions on the record itself only; other records may be pending, stale or lost."
  },
  {
   "property": "C85",
   "status": "proved",
   "theorems": [
    "C85_nothing_false",
    "C85_search"
   ],
   "note": "Only condition: the database has committed options when it syncs committed records."
  },
  {
   "property": "C86",
   "status": "proved",
   "theorems": [
    "C86_hits_real",
    "C86_record_data"
   ],
   "note": "For every library behaviour (keyed), data class with type_exact values and histories whose data parse (all_parse): both are in the statement of the property; C76_search_data_refuted shows the first is needed."
  },
  {
   "property": "C87",
   "status": "proved",
   "theorems": [
    "C87_data_fields",
    "C87_parsed_fields",
    "C87_parsed_counts"
   ],
   "note": "In terms of the values of the prepared records (value_at) and of what is parsed out of them."
  },
  {
   "property": "C88",
   "status": "proved",
   "theorems": [
    "C88_kept",
    "C88_documents",
    "C88_patch"
   ],
   "note": "The code of ingest.py and model.py on the documents themselves (Bson.v): pymongo's operations with dotted paths, DiffOps as arrays, versions as text. C88_documents holds for every list of calls and carries the theorems on Mongo.v over."
  },
  {
   "property": "C89",
   "status": "partial",
   "theorems": [
    "C89_taken_refuted",
    "C89_prepared",
    "C89_taken_partial"
   ],
   "note": "REFUTED: integers beyond 64 bits (OverflowError) and surrogates in the id of a record are not dealt with. C89_prepared: for the data of a record, the integers are all that can go wrong. C89_taken_partial: with storable records nested at least five levels less deep than the limit all calls succeed, whatever the history. The size of a document (16 MB for the whole history of a record) is the subject of C99."
  },
  {
   "property": "C90",
   "status": "partial",
   "theorems": [
    "C90_delete_refuted",
    "C90_delete_exact",
    "C90_delete_partial"
   ],
   "note": "REFUTED: data nested 96 to 99 levels deep can be added and committed with MongoDB's limit of 100 but not deleted. C90_delete_exact: exactly if nested at least five levels less than the limit; C90_delete_partial: then after any history, and what is kept."
  },
  {
   "property": "C91",
   "status": "partial",
   "theorems": [
    "C91_kept_partial",
    "C91_grows_partial",
    "C91_alone_partial",
    "C91_calls",
    "C91_death",
    "C91_kept_refuted",
    "C91_lost"
   ],
   "note": "REFUTED: a process that read a record before a commit and writes after it overwrites what was committed (C91_lost: always), and two processes that add the same new record leave two documents. Proved for all interleavings in which no document is committed while a write for its record is outstanding, and clock values grow; C91_alone_partial: for each record by itself, whatever happens to others. A process that ends loses what it had not written and nothing of the others (C91_death)."
  },
  {
   "property": "C92",
   "status": "partial",
   "theorems": [
    "C92_next_sync_refuted",
    "C92_each_record",
    "C92_all_seen_partial",
    "C92_stuck"
   ],
   "note": "REFUTED: a record seen just before it is committed is left out (pending records are not indexed), and when another has been indexed with the new version all further syncs do nothing (C92_stuck). Proved: each record is indexed as by a sync before or after the commit, according to how it was seen."
  },
  {
   "property": "C93",
   "status": "partial",
   "theorems": [
    "C93_refuted",
    "C93_interrupted",
    "C93_finished",
    "C93_order",
    "C93_again",
    "C93_histories",
    "C93_completed_partial"
   ],
   "note": "REFUTED (the code says so in a todo): records of one ingest get different versions, and after the interrupted first commit of a database a sync raises as there are no options. Proved for every point of interruption and every set of documents reached: each document and options document is as before or as committed, options are committed only when all data are, each record is as in C10 before or after the commit for all later calls, and another commit leaves nothing waiting, each record having its data once with one of the two versions."
  },
  {
   "property": "C94",
   "status": "partial",
   "theorems": [
    "C94_refuted",
    "C94_at_once_partial",
    "C94_visible_partial",
    "C94_repaired",
    "C94_failing_partial",
    "C94_ended_partial",
    "C94_late"
   ],
   "note": "REFUTED: documents of the arcs have no id, so each process adds them again and a search at an older version finds a record twice. Proved for every number of processes and every order of the writes: latest is as after one sync, each process adds the documents of the arcs once (C94_at_once_partial, also when they begin at different moments before the first one ends); if any of them fail at any point each record's document in latest is as before or as after one sync, the latter if one did not fail, and each process adds a part of the documents of the arcs (C94_failing_partial); what is visible when the first one ends, the version of Elasticsearch being that of one sync (C94_ended_partial, C94_visible_partial, for processes that begin with the same arcs); a process that begins then does nothing, if a sync after one sync does (C94_late); resync_arcs afterwards gives what it gives after one sync (C94_repaired)."
  },
  {
   "property": "C95",
   "status": "partial",
   "theorems": [
    "C95_refuted",
    "C95_stopped_exactly",
    "C95_again",
    "C95_arcs_again",
    "C95_nothing_new",
    "C95_arcs_lost",
    "C95_completed",
    "C95_parser"
   ],
   "note": "REFUTED: one record that cannot be parsed stops every sync that considers it, for good. Proved for every parser whose raising does not depend on how equal data is written (the modelled one, C95_parser): a sync or resync raises exactly if a record it considers has a version that cannot be parsed with the options used for it (C95_stopped_exactly, given that options are committed); after any later calls, corrections and deletions included, it raises again as long as what is indexed is older (C95_again, C95_arcs_again); such a sync makes nothing visible (C95_nothing_new), such a resync takes the older versions out of the search (C95_arcs_lost); a sync that does not raise is the one of the other properties (C95_completed)."
  },
  {
   "property": "C96",
   "status": "partial",
   "theorems": [
    "C96_read_back",
    "C96_refuted",
    "C96_exact",
    "C96_field_partial"
   ],
   "note": "REFUTED: the text may be in two formats of the options that make different dates of it (2003-01-02). Proved for every moment and every format (no directive twice, an offset at the end only): strptime reads the text as the moment (C96_read_back, in UTC without offset), it is indexed as it for every order of the formats iff the formats that read the text agree (C96_exact), also as a field of a record (C96_field_partial). Numbers may lack their leading zero, fractions the last digits, and offsets may have a colon or be Z. Missing: other directives, offsets before other parts of a format."
  },
  {
   "property": "C97",
   "status": "partial",
   "theorems": [
    "C97_refuted",
    "C97_raises_exactly",
    "C97_order",
    "C97_some_order",
    "C97_sync_exactly",
    "C97_for_good",
    "C97_usable_partial",
    "C97_default"
   ],
   "note": "REFUTED: a date format with a directive twice is accepted; strptime raises re.error for it, which parse_value does not catch, so that no record can be indexed any more, also after the options are changed back. Proved for any functions saying when strptime and format raise: parsing raises exactly if it does otherwise or a value inside is reached by a format that raises before one that reads it (C97_raises_exactly); which is so for some order of the set, and for all of them iff no other format reads the text (C97_order, C97_some_order); exactly when a sync raises (C97_sync_exactly), and that it does so for good (C97_for_good). Formats without repetition, the default ones among them, do no harm (C97_usable_partial, C97_default). Missing: when formats with other directives and formats for floats raise (parameters)."
  },
  {
   "property": "C98",
   "status": "partial",
   "theorems": [
    "C98_refuted",
    "C98_taken_exactly",
    "C98_within_partial",
    "C98_too_many",
    "C98_for_good"
   ],
   "note": "REFUTED: four records with 444 fields between them (443 and the _id), whose values are numbers, dates, booleans and geometries, cannot all be indexed, in any order. Proved: documents are all taken exactly if the fields of all of them and the predefined ones number at most 4000 (C98_taken_exactly); records with at most 443 fields between them always are, whatever the values and the options (C98_within_partial; 443 is the largest such number, by C98_refuted); records with values in 998 fields or more never are (C98_too_many); what was rejected stays so, whatever is indexed in between (C98_for_good). Missing: between 444 and 997 fields it depends on the types of the values."
  },
  {
   "property": "C99",
   "status": "partial",
   "theorems": [
    "C99_refuted",
    "C99_commit_refuted",
    "C99_one_change_refuted",
    "C99_bytes",
    "C99_versions",
    "C99_commit_exactly",
    "C99_change_exactly",
    "C99_flat_partial",
    "C99_change_bytes_partial",
    "C99_room_partial",
    "C99_nested_partial"
   ],
   "note": "REFUTED: the document of a record has its whole history, and MongoDB takes 16 MiB. A record of 20 bytes whose boolean goes back and forth cannot be changed for ever (C99_refuted); an ingest can succeed and no commit after it, as the version takes 8 bytes more (C99_commit_refuted); one change of a record of 70 KB can be too large, as the changes of each nested dict repeat its path (C99_one_change_refuted). Proved: the sizes are those of the bytes of BSON (C99_bytes); no record ever has 524288 earlier versions (C99_versions); exactly which commits (C99_commit_exactly) and which changes of a committed record (C99_change_exactly) are refused; flat records of given fields can be changed as often as 16 MiB allow with at most the size of their fields and 12 bytes per field and 77 bytes per version (C99_flat_partial). For any two records, lists and dicts included, the changes take at most 8 and 10 times their bytes and a path for each list and dict (C99_change_bytes_partial), and an ingest of a committed record is taken as long as its document has that room (C99_room_partial). Over a whole history with rollbacks, records of a given size and given paths, nested in any way, can be changed as often as 16 MiB allow with 18 times that size, the paths and 26 bytes per version (C99_nested_partial). Missing: the exact number of changes for records that are not alike."
  },
  {
   "property": "C100",
   "status": "partial",
   "theorems": [
    "C100_refuted",
    "C100_request_exactly",
    "C100_partial",
    "C100_record_partial",
    "C100_sync_partial"
   ],
   "note": "REFUTED: a request has 100 operations by default, whatever their size. 100 records of half a MiB each, 50 MiB between them, make a request of more than 100 MiB, as the document of a record has each text twice and more (C100_refuted: they are read and parsed and the request is written, for every behaviour of the libraries, name and state of the arcs). Elasticsearch refuses it with the status 413, and the sync raises. Proved: a request takes what its operations take, each by itself (C100_request_exactly); with operations of up to a hundredth of the limit (any number of operations in a request and any limit likewise) all requests are within it (C100_partial). The bytes of an operation are bounded by those of the data as JSON, the number of its values, its longest path, and what a geometry and a formatted float take as text (C100_record_partial), so that a sync of records that leave enough room sends no request over the limit (C100_sync_partial). Missing: how long the texts of geometries are that shapely makes of the data; it is a parameter."
  }
 ]
}