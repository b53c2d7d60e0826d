{
 "claims": [
  {
   "property": "C01",
   "status": "proved",
   "theorems": [
    "C01_diff_reaches_target",
    "C01_diff_total",
    "C01_diff_result_wf",
    "C01_diff_column_order"
   ],
   "note": "well-formed schemas; diff itself is total on all schemas"
  },
  {
   "property": "C02",
   "status": "proved",
   "theorems": [
    "C02_diff_empty_iff_same",
    "C02_nan_default_refuted"
   ],
   "note": "well-formed schemas exclude NaN defaults; C02_nan_default_refuted shows why"
  },
  {
   "property": "C03",
   "status": "proved",
   "theorems": [
    "C03_ops_ordered_and_exact"
   ],
   "note": ""
  },
  {
   "property": "C04",
   "status": "proved",
   "theorems": [
    "C04_down_undoes_up",
    "C04_down_from_any_equal"
   ],
   "note": ""
  },
  {
   "property": "C05",
   "status": "proved",
   "theorems": [
    "C05_resolution_terminates",
    "C05_resolution_sound_complete",
    "C05_success_means_resolved",
    "C05_crash_iff_malformed",
    "C05_no_pk_crash_refuted"
   ],
   "note": "termination for every schema; sound/complete on every schema of the shape the code assumes; crash exactly on the others"
  },
  {
   "property": "C06",
   "status": "proved",
   "theorems": [
    "C06_only_unresolved_change",
    "C06_idempotent"
   ],
   "note": ""
  },
  {
   "property": "C07",
   "status": "proved",
   "theorems": [
    "C07_references",
    "C07_incremental_refuted"
   ],
   "note": "single resolution; C07_incremental_refuted is the finding that table-by-table resolution loses aliased references"
  },
  {
   "property": "C08",
   "status": "partial",
   "theorems": [
    "C08_roundtrip",
    "C08_injective",
    "C08_total_order",
    "C08_reading_partial",
    "C08_reading_refuted"
   ],
   "note": "round trip, injectivity and order proved; reading other strings may crash (C08_reading_refuted), so only the partial statement holds"
  },
  {
   "property": "C09",
   "status": "partial",
   "theorems": [
    "C09_listing_is_chain",
    "C09_listing_sound",
    "C09_since_is_rest",
    "C09_missing_predecessor_refuted",
    "C09_name_reuse_diverges_refuted"
   ],
   "note": "Proved for every coherent store and every chain; also for stores where a predecessor is missing. Refuted outside: a missing predecessor silently truncates the list (C09_missing_predecessor_refuted), and reusing a name makes listing loop forever (C09_name_reuse_diverges_refuted)."
  },
  {
   "property": "C10",
   "status": "proved",
   "theorems": [
    "C10_applied_unapplied_partition",
    "C10_reading_is_safe",
    "C10_last_applied_any_rows"
   ],
   "note": "For every chain and every recorded prefix, also when calls to the database fail; C10_last_applied_any_rows for arbitrary rows."
  },
  {
   "property": "C11",
   "status": "proved",
   "theorems": [
    "C11_migrate_atomic",
    "C11_migrate_resumes",
    "C11_migrate_again_does_nothing"
   ],
   "note": "For every fault plan (an error, or stopping before or after each call) and any number of interrupted runs. The effect of a script is an arbitrary function; hypothesis: scripts do not touch rows of butane_migrations."
  },
  {
   "property": "C12",
   "status": "partial",
   "theorems": [
    "C12_unmigrate_reverse_prefix",
    "C12_unmigrate_restores",
    "C12_unmigrate_completes",
    "C12_unreadable_info_refuted"
   ],
   "note": "Proved for every chain, prefix and fault plan. Refuted when a migration's info.json is unreadable: unmigrate stops early and reports success (C12_unreadable_info_refuted)."
  },
  {
   "property": "C13",
   "status": "proved",
   "theorems": [
    "C13_creation",
    "C13_bookkeeping_table",
    "C13_history",
    "C13_history_extends",
    "C13_creation_total",
    "C13_branch_keeps_latest",
    "C13_disk_creation"
   ],
   "note": "In-memory and on-disk stores, histories of any length."
  },
  {
   "property": "C14",
   "status": "partial",
   "theorems": [
    "C14_disk_history",
    "C14_reused_directory_refuted"
   ],
   "note": "Proved for every history with fresh names and every order in which directories are listed. Refuted when the directory of the new migration already exists (C14_reused_directory_refuted)."
  },
  {
   "property": "C15",
   "status": "partial",
   "theorems": [
    "C15_crash_during_creation",
    "C15_crash_in_history",
    "C15_torn_state_refuted"
   ],
   "note": "Every crash point of every creation with a fresh name, and of every history: intact, complete, or in the window in which state.json is being replaced. In that window the claim is false (C15_torn_state_refuted)."
  },
  {
   "property": "C16",
   "status": "proved",
   "theorems": [
    "C16_copy_preserves",
    "C16_sources_are_results",
    "C16_embed_from_disk"
   ],
   "note": "copy_migration into memory from any source; the disk and memory sources are shown to meet the hypotheses."
  },
  {
   "property": "C17",
   "status": "partial",
   "theorems": [
    "C17_filter_text_partial",
    "C17_or_inside_and_refuted",
    "C17_or_inside_not_refuted",
    "C17_and_inside_not_refuted",
    "C17_empty_conjunction_refuted",
    "C17_reserved_column_refuted",
    "C17_empty_list_refuted",
    "C17_two_joins_refuted"
   ],
   "note": "Proved for every filter whose brackets SQL does not need, over every engine, database and row. The unrestricted claim is false: OR inside AND, AND/OR inside NOT, empty conjunctions, reserved column names, empty IN lists on PostgreSQL and two joins are refuted."
  },
  {
   "property": "C18",
   "status": "partial",
   "theorems": [
    "C18_filter_placeholders_partial",
    "C18_query_placeholders_partial",
    "C18_change_placeholders",
    "C18_text_ignores_values",
    "C18_placeholder_without_value_refuted"
   ],
   "note": "Text independence proved for every filter and query. Counting and order of placeholders proved for every supported filter and for all insert, update and upsert statements; a bare placeholder (public constructor) is refuted."
  },
  {
   "property": "C19",
   "status": "partial",
   "theorems": [
    "C19_pg_numbering_partial",
    "C19_pg_change_numbering_partial",
    "C19_pg_upsert_numbering",
    "C19_more_values_refuted"
   ],
   "note": "Proved up to 126 values (127 without overflow checks), and for any number in insert-or-update. Beyond that the i8 counter panics or wraps: refuted."
  },
  {
   "property": "C20",
   "status": "partial",
   "theorems": [
    "C20_macro_means_rust_partial",
    "C20_macro_accepts",
    "C20_group_refuted"
   ],
   "note": "Proved end to end (macro expansion, SQL text, evaluation) for every expression the macro accepts except invisible groups and copied conditions, whose grouping the SQL text loses (C20_group_refuted)."
  },
  {
   "property": "C21",
   "status": "partial",
   "theorems": [
    "C21_load_partial",
    "C21_load_first_partial",
    "C21_delete_partial",
    "C21_load_first_ignores_limit_refuted",
    "C21_negative_limit_refuted"
   ],
   "note": "Exact characterisation of load, load_first and delete for any sequence of builder calls, within the filters of C17. load_first ignores limit(0) and a negative limit is no limit on SQLite: refuted."
  },
  {
   "property": "C22",
   "status": "partial",
   "theorems": [
    "C22_insert",
    "C22_insert_returning_partial",
    "C22_update",
    "C22_assignment",
    "C22_upsert",
    "C22_returning_reserved_refuted"
   ],
   "note": "Insert, update and upsert proved for all column lists (PostgreSQL within its placeholder counter). RETURNING with a reserved key name is refuted; SQLite's SELECT by last_insert_rowid is not parsed."
  },
  {
   "property": "C23",
   "status": "partial",
   "theorems": [
    "C23_literal_partial",
    "C23_text_exact",
    "C23_date_refuted",
    "C23_json_refuted",
    "C23_text_extends_statement_refuted",
    "C23_not_finite_refuted",
    "C23_default_value"
   ],
   "note": "Proved for null, booleans, integers, finite reals, texts without a quote, blobs and timestamps. Refuted for texts with quotes (which can extend the statement), dates, JSON and numbers that are not finite."
  },
  {
   "property": "C24",
   "status": "partial",
   "theorems": [
    "C24_schema_and_data_partial",
    "C24_migration_succeeds_partial",
    "C24_turso_partial",
    "C24_added_reference_lost_refuted",
    "C24_added_unique_refused_refuted",
    "C24_removed_unique_refused_refuted",
    "C24_referred_table_refused_refuted",
    "C24_tables_dropped_in_order_refuted",
    "C24_table_before_reference_refuted",
    "C24_key_moves_refuted",
    "C24_temporary_name_taken_refuted",
    "C24_timestamp_default_refuted",
    "C24_auto_without_key_refuted"
   ],
   "note": "For every pair of declarable schemas and every database with the old schema: if the script runs, the result has the new schema and the old rows (new columns hold their default), C24_schema_and_data_partial; the script does run on every database that is ready for it (a list of conditions in MigrateSpec.ready), C24_migration_succeeds_partial; both also for Turso. Refuted outside: added references are lost; UNIQUE columns cannot be added or removed; tables with referring rows cannot be changed or dropped; key moves; temporary name clash; timestamp default unreadable; auto without key is not SQL. Added columns with a reference and defaults that are dates, JSON or timestamps are excluded."
  },
  {
   "property": "C25",
   "status": "partial",
   "theorems": [
    "C25_schema_reached_partial",
    "C25_migration_completes_partial",
    "C25_auto_ignored_refuted",
    "C25_auto_retyped_refuted",
    "C25_auto_added_refuted",
    "C25_key_stays_refuted",
    "C25_key_replaced_refuted",
    "C25_former_key_nullable_refuted",
    "C25_capital_keyword_refuted",
    "C25_default_not_created_refuted",
    "C25_default_invented_refuted",
    "C25_referred_table_refuted",
    "C25_bytes_default_refuted",
    "C25_names_collide_refuted",
    "C25_long_name_refuted"
   ],
   "note": "Proved: for every pair of schemas whose names can be told apart and every database with the old schema, the script is written and read, and if it runs to its end the catalogue has the new schema: columns, types, nullability, numbering, unique and primary keys, references, changed defaults; removed tables are gone and other tables untouched. Proved too: the script does run to its end if nothing in the catalogue stands in its way (pg_ready), unless the engine refuses a statement because of the rows. Missing: the changes PostgreSQL scripts cannot express or carry out (the _refuted theorems: numbering changes, given-up or replaced primary key, dropped default of new tables, default of added columns, referred table dropped, bytes default, names that collide, are long or are capitalised keywords). Rows are not modelled."
  },
  {
   "property": "C26",
   "status": "partial",
   "theorems": [
    "C26_statements_recovered_partial",
    "C26_every_migration_partial",
    "C26_semicolon_default_refuted"
   ],
   "note": "Proved for every list of operations that can be written and for every pair of declarable schemas whose added text defaults have no semicolon: what Turso sends are exactly the statements of the script, and, up to STRICT, those of SQLite's script, whatever the line breaks. Missing: defaults with a semicolon, refuted by C26_semicolon_default_refuted."
  },
  {
   "property": "C27",
   "status": "partial",
   "theorems": [
    "C27_matches",
    "C27_contains_partial",
    "C27_by_key",
    "C27_owner_column_refuted"
   ],
   "note": "matches proved in full for filters SQL needs no brackets in; contains proved unless the inner filter names a column owner or has, where the generated text is ambiguous (refuted)."
  },
  {
   "property": "C28",
   "status": "partial",
   "theorems": [
    "C28_same_truth_partial",
    "C28_query_partial",
    "C28_nothing_nested_sent_partial",
    "C28_nested_subquery_refuted",
    "C28_delete_refuted"
   ],
   "note": "Proved for every filter SQL needs no brackets in whose subqueries contain no further subquery, for any engine that answers statements without subqueries and compares values by their stored form; also that no statement of such a query contains a subquery. A subquery inside a subquery is sent as it is, and deleting by a filter replaces nothing (both refuted)."
  },
  {
   "property": "C29",
   "status": "partial",
   "theorems": [
    "C29_save_get_partial",
    "C29_save_keeps_fields",
    "C29_save_others",
    "C29_delete"
   ],
   "note": "Get after save returns an equal object, other objects and tables are unchanged, delete removes exactly the object. Partial: for an automatic key that is already set the theorem needs the row to be there (C30_missing_row_refuted shows the code stores nothing otherwise); relations must be the object's own (C36_stale_owner_refuted)."
  },
  {
   "property": "C30",
   "status": "partial",
   "theorems": [
    "C30_first_save",
    "C30_later_save",
    "C30_plain_key",
    "C30_history",
    "C30_missing_row_refuted",
    "C30_lost_reply_refuted"
   ],
   "note": "First save, later saves and all histories of successful saves proved. Refuted: saving an object with a set automatic key whose row is missing stores nothing; a lost reply makes a retry store the object twice."
  },
  {
   "property": "C31",
   "status": "proved",
   "theorems": [
    "C31_key",
    "C31_automatic_fields",
    "C31_no_key",
    "C31_columns",
    "C31_write",
    "C31_write_pairs",
    "C31_read",
    "C31_read_length",
    "C31_round_trip",
    "C31_field_expressions"
   ],
   "note": "For every struct definition the macro accepts, with any path resolver. Generic arguments only on a path's last segment."
  },
  {
   "property": "C32",
   "status": "partial",
   "theorems": [
    "C32_round_trip_partial",
    "C32_nested_option_refuted",
    "C32_kind",
    "C32_fits_column",
    "C32_other_kind",
    "C32_unaltered_partial",
    "C32_range_refuted",
    "C32_low_bits",
    "C32_f32_refuted",
    "C32_f32_nearest",
    "C32_f32_sign",
    "C32_f32_nan",
    "C32_f32_exact",
    "C32_uuid_text",
    "C32_uuid_length",
    "C32_dates",
    "C32_times",
    "C32_map",
    "C32_map_member_refuted",
    "C32_no_panic"
   ],
   "note": "round trip for all types except f32 NaN, unset automatic keys and nested options; integers out of range keep their low bits and f64 read as f32 gives the nearest f32 (both proved); findings: out-of-range integers and reals are silently altered, map members of another type panic"
  },
  {
   "property": "C33",
   "status": "partial",
   "theorems": [
    "C33_sqlite_partial",
    "C33_turso_partial",
    "C33_pg_partial",
    "C33_nan",
    "C33_nan_refuted",
    "C33_pg_nanoseconds_refuted",
    "C33_pg_other_type",
    "C33_pg_write",
    "C33_sqlite_other_class",
    "C33_turso_other_class",
    "C33_row_other_type",
    "C33_sqlite_other_type_refuted"
   ],
   "note": "all values except NaN (SQLite, Turso become NULL) and PostgreSQL sub-microsecond timestamps; findings refuted: NaN, nanoseconds, reads within one storage class alter the value"
  },
  {
   "property": "C34",
   "status": "proved",
   "theorems": [
    "C34_equal",
    "C34_equal_key",
    "C34_equal_field",
    "C34_order",
    "C34_set_once",
    "C34_never_changed",
    "C34_unset_refused",
    "C34_valid"
   ],
   "note": ""
  },
  {
   "property": "C35",
   "status": "partial",
   "theorems": [
    "C35_made",
    "C35_history_partial",
    "C35_equal_partial",
    "C35_key_types",
    "C35_compare_unset_refuted",
    "C35_unreadable_key_refuted"
   ],
   "note": "every history; findings: comparing with an unset automatic key panics, any SQL value is accepted"
  },
  {
   "property": "C36",
   "status": "partial",
   "theorems": [
    "C36_stale_owner_refuted",
    "C36_deleted_owner_refuted",
    "C36_save_partial",
    "C36_failed_save_partial",
    "C36_not_initialized",
    "C36_add_unsaved",
    "C36_delete",
    "C36_set",
    "C36_history_partial",
    "C36_load_keeps",
    "C36_other_owner_refuted",
    "C36_remove_then_add_refuted",
    "C36_failed_save_refuted"
   ],
   "note": "save = former + added - removed for the owner over any add/remove sequence, for every failure what stays pending, and over every history of add/remove/save/delete/set/load on any number of owners provided no save removes an object another owner also has. Refuted in general: a removal deletes every owner's relation, remove-then-add loses the add, a failed save drops the value it was storing. Also refuted: an object whose key was changed after loading keeps adding to the old key's relations (C36_stale_owner_refuted), and delete leaves the relation rows (C36_deleted_owner_refuted)."
  },
  {
   "property": "C37",
   "status": "partial",
   "theorems": [
    "C37_load_partial",
    "C37_load_any_partial",
    "C37_load_succeeds",
    "C37_ordered_partial",
    "C37_cached",
    "C37_uninitialized",
    "C37_failed_load",
    "C37_get",
    "C37_equal",
    "C37_after_save_partial",
    "C37_load_changes_nothing",
    "C37_removed_refuted",
    "C37_twice_refuted",
    "C37_stale_refuted",
    "C37_order_refuted"
   ],
   "note": "load with an empty cache and no pending removal returns exactly the related and added objects, each once when nothing added is related already; after a save it reflects the saved state if the cache was empty. Refuted: pending removals ignored, added-again objects come twice, remove/load/save/load is stale, load_ordered does not sort pending additions."
  },
  {
   "property": "C38",
   "status": "partial",
   "theorems": [
    "C38_discarded",
    "C38_invisible",
    "C38_committed",
    "C38_commit_failed",
    "C38_all_or_nothing",
    "C38_single_use",
    "C38_commit_succeeds",
    "C38_connection_free",
    "C38_pg_failed_statement",
    "C38_lost_reply_refuted",
    "C38_pg_commit_refuted",
    "C38_turso_failed_commit_refuted",
    "C38_turso_sync_drop_refuted",
    "C38_turso_drop_panics_refuted",
    "C38_lost_begin_refuted"
   ],
   "note": "All-or-nothing, invisibility before commit and single use are proved for all three backends, every call sequence and every loss of commands. Refuted as stated: a lost answer to COMMIT; PostgreSQL reports success for a commit after a refused statement; Turso leaves the transaction open after a refused commit and when dropped outside a tokio runtime, and panics when dropped on a current-thread runtime."
  },
  {
   "property": "C39",
   "status": "partial",
   "theorems": [
    "C39_in_order",
    "C39_once",
    "C39_own_result",
    "C39_waits_for_own",
    "C39_progress",
    "C39_panic_stays",
    "C39_context_lifetime",
    "C39_freed_once",
    "C39_transaction_first",
    "C39_shutdown_last",
    "C39_stopped",
    "C39_borrowed_or_gone",
    "C39_no_panic",
    "C39_dangling_refuted",
    "C39_cancelled_call_runs_refuted",
    "C39_cancelled_transaction_refuted",
    "C39_panic_refuted"
   ],
   "note": "Order, single execution, own results, progress, context lifetimes and shutdown are proved for every schedule including dropped futures and panics. Refuted as stated: a dropped future leaves its command queued with dangling borrows, a dropped transaction() leaks an open transaction, and a panic in one call kills the worker so that dropping the adapter panics."
  },
  {
   "property": "C40",
   "status": "proved",
   "theorems": [
    "C40_given_back",
    "C40_closure_ends",
    "C40_poisoned_when",
    "C40_poisoned_answer",
    "C40_poisoned_calls",
    "C40_history",
    "C40_abandoned",
    "C40_poisoned_looks"
   ],
   "note": "Every closure, every outcome around it and every later history."
  },
  {
   "property": "C41",
   "status": "partial",
   "theorems": [
    "C41_scheme_found",
    "C41_url",
    "C41_no_scheme",
    "C41_unacceptable",
    "C41_text_kept",
    "C41_connect",
    "C41_upper_case_refuted",
    "C41_drive_letter_refuted",
    "C41_slashes_in_value_refuted",
    "C41_rejected_url_refuted",
    "C41_add_pair",
    "C41_add_query",
    "C41_add_refused",
    "C41_add_fragment_refuted",
    "C41_add_unquoted_refuted",
    "C41_save_load",
    "C41_save_files",
    "C41_torn_save"
   ],
   "note": "Recognition, text kept, added parameters and saved files are proved. Refuted as stated: an upper-case scheme, a drive-letter path, '://' inside a key-value value, a URL the parser rejects, a parameter added after a fragment, and unquoted added values."
  },
  {
   "property": "C42",
   "status": "partial",
   "theorems": [
    "C42_buffered_each_once",
    "C42_buffered_current_refuted",
    "C42_buffered_current_is_following",
    "C42_buffered_current_before_first",
    "C42_sqlite_each_once",
    "C42_sqlite_failure",
    "C42_sqlite_current",
    "C42_load_buffered",
    "C42_load_sqlite",
    "C42_load_sqlite_failure",
    "C42_load_unique",
    "C42_load_first",
    "C42_copy",
    "C42_copy_alike",
    "C42_adapter_same"
   ],
   "note": "Refuted in part: on buffered results (PostgreSQL, Turso, async adapter) current returns the row after the one next returned (C42_buffered_current_refuted). Everything else is proved: next visits each row once in order for every call sequence on every backend, current is right on SQLite, load maps the rows in order up to the first failure, and loading through an async adapter equals loading directly."
  },
  {
   "property": "C43",
   "status": "partial",
   "theorems": [
    "C43_migrate_to",
    "C43_migrate_to_completes",
    "C43_migrate_all",
    "C43_migrate_unknown_name_refuted",
    "C43_rollback_to",
    "C43_rollback_to_completes",
    "C43_rollback_restores",
    "C43_rollback_other_name",
    "C43_rollback_latest",
    "C43_rollback_latest_completes",
    "C43_rollback_pending_name_refuted",
    "C43_list",
    "C43_list_answers"
   ],
   "note": "Migrating to a name, rolling back to a name or by one, and listing are proved over every chain, state and fault. Two parts of the English claim are false of the code and proved so: migrating to an unknown or already applied name applies everything pending (C43_migrate_unknown_name_refuted), and rolling back to a pending name panics instead of reporting it (C43_rollback_pending_name_refuted)."
  },
  {
   "property": "C44",
   "status": "partial",
   "theorems": [
    "C44_store_means",
    "C44_creation_lays_out",
    "C44_add_backend",
    "C44_add_backend_twice_refused",
    "C44_add_backend_scripts",
    "C44_add_backend_completes",
    "C44_remove_backend",
    "C44_remove_last_refused",
    "C44_remove_backend_scripts",
    "C44_remove_backend_completes",
    "C44_regenerate",
    "C44_regenerate_completes",
    "C44_collapse",
    "C44_collapse_completes",
    "C44_collapse_refused",
    "C44_detach",
    "C44_detach_completes",
    "C44_make",
    "C44_make_completes",
    "C44_make_refused",
    "C44_any_history",
    "C44_collapse_drops_pending_refuted",
    "C44_collapse_interrupted_refuted",
    "C44_collapse_empty_schema_refuted",
    "C44_regenerate_interrupted_refuted",
    "C44_add_interrupted_refuted",
    "C44_remove_interrupted_refuted",
    "C44_regenerate_other_layout_refuted",
    "C44_data_only_refuted"
   ],
   "note": "Proved for every store laid out as creation leaves it, every list of backends and every history of maintenance commands: what add-backend, remove-backend, regenerate, collapse, detach and make leave behind and when they are refused; C44_any_history carries the layout through any sequence. Not true as stated: collapse drops a pending migration, interrupted commands leave mixed stores, a collapse to an empty schema, regenerate on a store laid out otherwise, data-only migrations (the C44_..._refuted theorems are witnesses)."
  },
  {
   "property": "C45",
   "status": "proved",
   "theorems": [
    "C45_enum_round_trip",
    "C45_enum_unknown",
    "C45_enum_accepted",
    "C45_enum_other_value",
    "C45_enum_derived",
    "C45_enum_with_data",
    "C45_newtype",
    "C45_newtype_round_trip",
    "C45_json",
    "C45_recorded_kind",
    "C45_json_mismatch_refuted"
   ],
   "note": "Enums and wrappers as stated; C45_json_mismatch_refuted records that types stored as JSON panic on JSON of another shape."
  },
  {
   "property": "C46",
   "status": "proved",
   "theorems": [
    "C46_table",
    "C46_filter",
    "C46_shared_table_refuted"
   ],
   "note": "C46_shared_table_refuted records that two models can share one table name."
  },
  {
   "property": "C47",
   "status": "partial",
   "theorems": [
    "C47_table",
    "C47_type",
    "C47_renamed",
    "C47_qualified_type_refuted",
    "C47_raw_type_refuted",
    "C47_shadowed_type_refuted",
    "C47_derived_type"
   ],
   "note": "Proved for every model except the type of a field whose derived type is written with its module, with a raw identifier, or named like a known type (refuted)."
  },
  {
   "property": "C48",
   "status": "partial",
   "theorems": [
    "C48_one_object",
    "C48_no_panic_partial",
    "C48_loads_no_panic",
    "C48_to_sql_refuted"
   ],
   "note": "one object under every schedule; no panic for loads or when the key is stored; finding: concurrent to_sql of a key made from an object panics"
  },
  {
   "property": "C49",
   "status": "partial",
   "theorems": [
    "C49_start",
    "C49_current_schema",
    "C49_outcome",
    "C49_interrupted",
    "C49_clean_recovers",
    "C49_rebuild",
    "C49_any_order",
    "C49_stale_table_refuted",
    "C49_cut_types_refuted",
    "C49_describe",
    "C49_describe_current",
    "C49_describe_unknown",
    "C49_describe_orphan_refuted",
    "C49_memory",
    "C49_memory_calls",
    "C49_memory_delete",
    "C49_memory_stale_type_refuted"
   ],
   "note": "Proved for every history, stop point and order. Refuted parts: the table of a model that was removed or renamed stays; a file of types cut off by a crash blocks recording until clean; describing a migration without its predecessor panics; in memory a resolved type does not follow a later change of the key it refers to."
  },
  {
   "property": "C50",
   "status": "partial",
   "theorems": [
    "C50_no_type_lost",
    "C50_reader",
    "C50_no_deadlock",
    "C50_clean",
    "C50_first_type_lost_refuted",
    "C50_clean_breaks_lock_refuted",
    "C50_torn_table_refuted",
    "C50_kill_breaks_later_refuted"
   ],
   "note": "Proved for every interleaving and kill while the directory exists and is not removed, with absence of deadlock in general; refuted for the first types recorded (lock error ignored), for recordings during cleaning (lock file removed), for readers while tables are written (no lock), and after a kill in the middle of a write."
  },
  {
   "property": "C51",
   "status": "proved",
   "theorems": [
    "C51_deploy",
    "C51_deploy_completes",
    "C51_undo",
    "C51_undo_completes",
    "C51_any_history",
    "C51_memory",
    "C51_disk"
   ],
   "note": "Deploying and undoing the created migrations on SQLite and Turso, for any sequence of runs and failures, from both stores; each single change must be one that C24 covers (change_fine). C54 is the same for PostgreSQL."
  },
  {
   "property": "C52",
   "status": "partial",
   "theorems": [
    "C52_text_reads",
    "C52_file_reads_partial",
    "C52_state_of_tool_reads",
    "C52_store_reads_partial",
    "C52_cut_file_partial",
    "C52_members",
    "C52_missing_members",
    "C52_finite",
    "C52_decimal_reads",
    "C52_short_decimals",
    "C52_real_default_refuted",
    "C52_infinite_default_refuted"
   ],
   "note": "Proved for all names, texts, integers and for every cut point. Real defaults: proved for every real whose shortest decimal has at most 22 places and 53 bits of digits; refuted in general, because serde_json is used without float_roundtrip (1e-30 reads back as the f64 before it), and an infinite default is written as null and refused when read."
  },
  {
   "property": "C53",
   "status": "partial",
   "theorems": [
    "C53_embedded_partial",
    "C53_literal",
    "C53_created_embedded",
    "C53_update",
    "C53_failure",
    "C53_hash_refuted"
   ],
   "note": "Proved for every directory whose strings contain no double quote followed by a number sign in the JSON text, which is proved to be exactly when the compiled program has the text. Refuted for a default such as #ffffff, after which the generated source does not compile."
  },
  {
   "property": "C54",
   "status": "proved",
   "theorems": [
    "C54_deploy",
    "C54_deploy_completes",
    "C54_undo",
    "C54_undo_completes",
    "C54_any_history",
    "C54_memory",
    "C54_disk"
   ],
   "note": "Deploying and undoing the created migrations on PostgreSQL, for any sequence of runs and failures, from both stores, beside tables of others; each single change must be one that C25 covers, with names that are not in each other's way (pg_change_fine). Of the rows only those of butane_migrations are modelled: a refusal because of rows is one of the refusals ranged over."
  },
  {
   "property": "C55",
   "status": "proved",
   "theorems": [
    "C55_call",
    "C55_custom",
    "C55_accepted",
    "C55_load",
    "C55_history",
    "C55_deployed",
    "C55_migrations_go_on",
    "C55_value"
   ],
   "note": "Stated for the texts and conversions of the SQLite backend; the engine is specified in SqliteData. C55_value covers field types that do not depend on another model."
  },
  {
   "property": "C56",
   "status": "partial",
   "theorems": [
    "C56_key_partial",
    "C56_turso",
    "C56_key_refuted"
   ],
   "note": "Proved for tables without a column called rowid (in any letters) on SQLite, and for every table with one integer key on Turso. Refuted on SQLite with such a column: C56_key_refuted shows that the key of another row is returned, or the save fails although the row was added. The engine's number for the next row is a parameter; names are otherwise compared as written."
  },
  {
   "property": "C57",
   "status": "proved",
   "theorems": [
    "C57_change",
    "C57_deploy",
    "C57_life",
    "C57_disk"
   ],
   "note": ""
  },
  {
   "property": "C58",
   "status": "partial",
   "theorems": [
    "C58_round_trip_partial",
    "C58_stored",
    "C58_others",
    "C58_new_key",
    "C58_goes_on",
    "C58_delete",
    "C58_model",
    "C58_missing_row_refuted"
   ],
   "note": "Proved for every model, schema, content and object, except that the claim is false of the code for an object whose automatic key is set but whose row is gone: the save reports success and stores nothing (C58_missing_row_refuted). C58_round_trip_partial has that exception as a hypothesis."
  },
  {
   "property": "C59",
   "status": "partial",
   "theorems": [
    "C59_history_partial",
    "C59_new_key",
    "C59_every_call"
   ],
   "note": "Any sequence of saves and deletes of objects of any number of models, refused calls included: get finds what was saved last. Partial because a save of an object whose automatic key is set but whose row is gone succeeds and stores nothing (C58_missing_row_refuted): after it there is still no object, as the step saved_nothing says. After a failed save of an object with relations nothing is claimed about that object."
  },
  {
   "property": "C60",
   "status": "partial",
   "theorems": [
    "C60_load_partial",
    "C60_load_first_partial",
    "C60_delete_partial",
    "C60_history_partial"
   ],
   "note": "Proved for filters without the groups of C17's findings, which SQLite reads differently (C17_*_refuted). load_first leaves the query's limit aside (C21_load_first_ignores_limit_refuted), and C60_load_first_partial says so. A save that failed after its row was written (C58) leaves the object unclear; such histories are left out of C60_history_partial, not of C60_load_partial."
  },
  {
   "property": "C61",
   "status": "proved",
   "theorems": [
    "C61_load",
    "C61_again",
    "C61_saved",
    "C61_set",
    "C61_delete"
   ],
   "note": "The engine's comparison is exact on the keys of each model (deployed), as in C58 to C60; the relation table takes the keys of both models. A removal made by another owner's save can take away relations of this one: that is C36's finding and not part of this claim."
  },
  {
   "property": "C62",
   "status": "partial",
   "theorems": [
    "C62_save",
    "C62_delete",
    "C62_relation",
    "C62_round_trip_partial",
    "C62_load_partial",
    "C62_load_first_partial",
    "C62_related",
    "C62_related_again",
    "C62_delete_query_partial",
    "C62_delete_subquery",
    "C62_history_partial",
    "C62_delete_refuted"
   ],
   "note": "C62_delete_refuted: a delete by a query whose filter has a subquery is refused on Turso, although loading by the same query works and SQLite deletes. Loading needs filters with no subquery in a subquery (C28_nested_subquery_refuted); round trip and histories need that a numbered object's row exists (C58_missing_row_refuted). Saving, deleting and setting objects and relations are proved equal to SQLite; loading relations is proved in full."
  },
  {
   "property": "C63",
   "status": "partial",
   "theorems": [
    "C63_object",
    "C63_load_partial",
    "C63_life_partial",
    "C63_deploy_partial"
   ],
   "note": "Proved for every history of saves, deletes and migrations and for the migrate command. Partial because C59 is: a save of an object whose automatic key is set and whose row is gone succeeds and stores nothing (C58_missing_row_refuted), and queries are limited as in C60. Types may change where the new type can read what was stored; a change of the key's type is not covered."
  },
  {
   "property": "C64",
   "status": "proved",
   "theorems": [
    "C64_own_key",
    "C64_new_number",
    "C64_no_other",
    "C64_own_key_related",
    "C64_new_number_related"
   ],
   "note": "C64_own_key (keys of the object's own) and C64_new_number (keys the database makes up) are for objects whose relations have nothing pending; C64_no_other says that no other new object is stored. C64_own_key_related and C64_new_number_related add that an object with partners to be added is stored if each partner is: these give the direction from the conditions to success only, and suppose that the relation tables have no key or unique column, as the macro makes them. The model is a version of the program deployed to the schema, and its values are ones a database can hold (object_fits). SQLite only."
  }
 ]
}