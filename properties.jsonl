{"id": "C01", "title": "A computed migration reaches the target schema", "statement": "Applying, in order, the operations that diff(old, new) returns to schema old yields a schema with exactly the tables of new, and in each table exactly the columns of new with the same type, nullability, key, auto, unique, default and reference attributes.", "quantifier": "every pair of well-formed schemas (distinct column names inside a table, tables filed under their own name), of any size", "why_tests_cant": "The space of schema pairs is unbounded and the interesting failures need a combination of added, removed and changed tables and columns.", "anchors": ["butane_core/src/migrations/adb.rs: diff, diff_table, ADB::transform_with, ATable::replace_column, ATable::remove_column"]}
{"id": "C02", "title": "No migration is produced exactly when nothing changed", "statement": "diff(old, new) is empty if and only if the two schemas have the same tables with the same columns (column order ignored); an identical rebuild therefore never produces a spurious migration and a real change is never missed.", "quantifier": "every pair of well-formed schemas", "why_tests_cant": "Tests show that a few chosen changes are detected; they cannot show that no change whatsoever is missed.", "anchors": ["butane_core/src/migrations/adb.rs: diff, diff_table, DeferredSqlType PartialEq", "butane_core/src/migrations/mod.rs: create_migration_to"]}
{"id": "C03", "title": "Migration operations are dependency-ordered and non-redundant", "statement": "In the output of diff all table additions come before everything else, constraints of dropped tables are removed before any table is dropped, constraints of added tables come last, no operation occurs twice, and each operation corresponds to an actual difference between the two schemas.", "quantifier": "every pair of well-formed schemas", "why_tests_cant": "An ordering claim over all interleavings of unbounded sets of added, dropped and changed tables.", "anchors": ["butane_core/src/migrations/adb.rs: diff, diff_table, Operation"]}
{"id": "C04", "title": "A downgrade undoes an upgrade at the schema level", "statement": "Applying diff(old, new) and then diff(new, old) to old gives back a schema equivalent to old.", "quantifier": "every pair of well-formed schemas", "why_tests_cant": "Needs all pairs of schemas; a test covers a handful.", "anchors": ["butane_core/src/migrations/adb.rs: diff, transform_with", "butane_core/src/migrations/mod.rs: create_migration_to"]}
{"id": "C05", "title": "Type resolution always terminates and finds exactly the derivable types", "statement": "Resolving the types of a schema terminates. It succeeds if and only if each deferred column type can be derived from the schema (primary key of a table, registered custom type, JSON map type, or a chain of these), every type it assigns is such a derivable type, and if a column cannot be derived it fails with an error instead of leaving it unresolved.", "quantifier": "every schema, including mutually recursive and self-referential deferred types", "why_tests_cant": "Fixpoint loops over arbitrary reference graphs; termination and completeness are unbounded statements.", "anchors": ["butane_core/src/migrations/adb.rs: ADB::resolve_types, TypeResolver, AColumn::resolve_type"]}
{"id": "C06", "title": "Type resolution changes nothing but unresolved types", "statement": "Resolving a schema preserves the set of tables, the columns of each table and their order, and every attribute other than an unresolved type or an unresolved reference; already known types are never changed; and resolving again changes no column type.", "quantifier": "every schema for which resolution returns", "why_tests_cant": "Frame conditions and idempotence quantify over all schemas.", "anchors": ["butane_core/src/migrations/adb.rs: ADB::resolve_types, AColumn::resolve_type, AColumn::resolve_reference_target"]}
{"id": "C07", "title": "Foreign keys resolve to the referenced table's primary key", "statement": "After resolution a reference to a model's key names the table that model is stored in (also when the model has a custom table name) and the column that is that table's primary key; references already pointing at a table are left alone.", "quantifier": "every schema, every deferred reference", "why_tests_cant": "The alias from model name to table name can be combined with arbitrary other types and insertion orders.", "anchors": ["butane_core/src/migrations/adb.rs: AColumn::resolve_reference_target", "butane_core/src/codegen/migration.rs: write_table_to_disk", "butane_core/src/migrations/memmigrations.rs: add_modified_table, add_type"]}
{"id": "C08", "title": "Type keys survive serialization and are totally ordered", "statement": "Reading back a written type key yields the same key, distinct keys are written differently, the order on type keys is a total order, and reading any other string is reported as an error rather than a crash.", "quantifier": "every type key and every string", "why_tests_cant": "All strings; in particular short and non-ASCII strings.", "anchors": ["butane_core/src/migrations/adb.rs: TypeKey Serialize, Deserialize, Ord"]}
{"id": "C09", "title": "The migration list is the chain from first to latest", "statement": "all_migrations returns each migration of the chain ending at the latest one exactly once, oldest first, each directly based on the one before it.", "quantifier": "every acyclic collection of migrations, of any length, possibly with detached or unrelated migrations present", "why_tests_cant": "Histories of unbounded length and shape.", "anchors": ["butane_core/src/migrations/mod.rs: Migrations::all_migrations, Migrations::migrations_since"]}
{"id": "C10", "title": "Applied and unapplied migrations partition the chain", "statement": "If the database has recorded a prefix of the chain as applied, last_applied_migration is the last of that prefix and unapplied_migrations is exactly the rest of the chain in order; nothing is skipped or repeated.", "quantifier": "every chain and every applied prefix (including none and all)", "why_tests_cant": "Unbounded chains and every prefix of each.", "anchors": ["butane_core/src/migrations/mod.rs: last_applied_migration, unapplied_migrations, migrations_since"]}
{"id": "C11", "title": "Migrating is atomic per migration at every failure point and can be resumed", "statement": "Whatever statement fails or wherever the process stops during migrate, the database afterwards is exactly the result of fully applying some prefix of the pending migrations, each together with its bookkeeping record; running migrate again continues with the first migration not applied, and after it succeeds another migrate does nothing.", "quantifier": "every chain, every starting prefix, every failure or crash point, every behaviour of the SQL statements", "why_tests_cant": "Every crash point of every history.", "anchors": ["butane_core/src/migrations/mod.rs: Migrations::migrate", "butane_core/src/migrations/migration.rs: apply, mark_applied"]}
{"id": "C12", "title": "Unmigrating rolls back all applied migrations in reverse order", "statement": "unmigrate downgrades exactly the applied migrations, newest first, removing each one's bookkeeping record in the same transaction; if a downgrade fails the remaining database is exactly that of a shorter applied prefix.", "quantifier": "every chain, every applied prefix, every failure point", "why_tests_cant": "Every history and failure point.", "anchors": ["butane_core/src/migrations/mod.rs: Migrations::unmigrate", "butane_core/src/migrations/migration.rs: downgrade"]}
{"id": "C13", "title": "Creating migrations maintains the chain", "statement": "After any sequence of create_migration calls based on the latest migration, the collection's latest is the last created one, its predecessor is the previous latest, all earlier migrations are unchanged and the full chain lists them in creation order; a migration not based on the latest does not move it.", "quantifier": "every sequence of migration creations with fresh names", "why_tests_cant": "Histories of unbounded length.", "anchors": ["butane_core/src/migrations/memmigrations.rs: add_migration", "butane_core/src/migrations/fsmigrations.rs: add_migration", "butane_core/src/migrations/mod.rs: create_migration_to"]}
{"id": "C14", "title": "A migration stored on disk gives back its full schema", "statement": "Reading the schema of any migration in a chain stored on disk, where unchanged tables are stored only by reference to the migration that last changed them, returns exactly the schema the migration was created for, however long the chain.", "quantifier": "every sequence of schemas stored as a chain", "why_tests_cant": "Sharing through arbitrarily long histories of unchanged tables.", "anchors": ["butane_core/src/migrations/fsmigrations.rs: add_modified_table, add_unmodified_table, db"]}
{"id": "C15", "title": "A crash while creating a migration leaves the existing chain intact", "statement": "If the process dies at any point while a new migration is being written, then afterwards the list of migrations and the schema of each of them is what it was before, or the new migration is completely present.", "quantifier": "every chain, every new migration with a fresh name, every crash point between and inside file writes", "why_tests_cant": "Crash points cannot be enumerated by unit tests.", "anchors": ["butane_core/src/migrations/fsmigrations.rs: write_contents, save_state, get_state, latest", "butane_core/src/migrations/mod.rs: create_migration_to"]}
{"id": "C16", "title": "Embedding migrations preserves them", "statement": "Copying a migration (as done when embedding migrations in a program) preserves its predecessor, schema, types and the up and down SQL of each backend.", "quantifier": "every migration", "why_tests_cant": "All schemas and backend sets.", "anchors": ["butane_core/src/migrations/mod.rs: copy_migration", "butane_cli/src/lib.rs: embed"]}
{"id": "C17", "title": "The SQL text of a filter means what the filter says", "statement": "Parsing the generated WHERE text by SQL's precedence rules and evaluating it with the bound values gives, on every row of every database, the same three-valued result as evaluating the filter expression itself.", "quantifier": "every filter expression tree, every database content", "why_tests_cant": "All trees; precedence errors only show on particular nestings.", "anchors": ["butane_core/src/db/helper.rs: sql_for_expr", "butane_core/src/query/mod.rs: BoolExpr, Expr"]}
{"id": "C18", "title": "Bound values match their placeholders and user data never enters the SQL text", "statement": "The number of placeholders in generated query text equals the number of bound values, the i-th placeholder stands for the i-th value in the order they occur in the filter, and no text, blob, date, JSON or custom value changes the text.", "quantifier": "every filter expression and every value", "why_tests_cant": "Injection freedom is a statement about all possible strings.", "anchors": ["butane_core/src/db/helper.rs: sql_for_expr, PlaceholderSource", "butane_core/src/db/sqlite.rs: query, delete_where", "butane_core/src/db/pg.rs: query, delete_where"]}
{"id": "C19", "title": "PostgreSQL placeholders are numbered 1 to n", "statement": "The placeholders in a statement generated for PostgreSQL are $1, $2, ..., $n in order, each naming its own bound value.", "quantifier": "every statement, with any number of bound values", "why_tests_cant": "Counter overflow only appears beyond a hundred values.", "anchors": ["butane_core/src/db/pg.rs: PgPlaceholderSource"]}
{"id": "C20", "title": "The filter macro means the Rust expression", "statement": "A filter! expression over a model's fields selects exactly the objects for which the expression, read as ordinary Rust boolean code on the object's field values, is true (NULL comparisons aside), through translation, SQL text and evaluation.", "quantifier": "every macro expression and every row", "why_tests_cant": "Compositional statement over all expressions.", "anchors": ["butane_codegen/src/filter.rs: handle_expr, handle_bin_op", "butane_core/src/query/fieldexpr.rs: FieldExpr", "butane_core/src/db/helper.rs: sql_for_expr"]}
{"id": "C21", "title": "Query builder results", "statement": "load returns the objects matching the last given filter, sorted by the given orders, after skipping offset and keeping at most limit; load_first returns the first of them; delete removes exactly those matching the filter.", "quantifier": "every query value built by any sequence of builder calls, every table content", "why_tests_cant": "Sequences of builder calls are unbounded.", "anchors": ["butane_core/src/query/mod.rs: Query", "butane_core/src/db/sqlite.rs: query", "butane_core/src/db/helper.rs: sql_select, sql_order, sql_limit, sql_offset"]}
{"id": "C22", "title": "Insert, update and upsert statements put each value in its own column", "statement": "In the statements generated for insert, update and upsert the i-th value is bound to the i-th column, the key value is bound to the key column, and executing them changes only the addressed row.", "quantifier": "every table, column list and value list", "why_tests_cant": "All arities, including empty and single-column lists.", "anchors": ["butane_core/src/db/helper.rs: sql_insert_with_placeholders, sql_update_with_placeholders, list_columns", "butane_core/src/db/sqlite.rs: sql_insert_or_update", "butane_core/src/db/pg.rs: sql_insert_or_replace_with_placeholders"]}
{"id": "C23", "title": "Default values in migrations are written as the values they are", "statement": "The SQL literal written for a column default, read back by SQL's literal syntax, denotes that default value and cannot terminate or extend the statement it occurs in.", "quantifier": "every default value", "why_tests_cant": "All strings, including quotes; all dates.", "anchors": ["butane_core/src/db/helper.rs: sql_literal_value, column_default"]}
{"id": "C24", "title": "SQLite migration scripts reach the target schema and keep the data", "statement": "Executing the script generated for SQLite on a database with the old schema succeeds and yields the new schema; every row of every kept table survives, with its values in all columns kept, and new columns hold their default.", "quantifier": "every pair of schemas, every table content", "why_tests_cant": "Schemas and contents are unbounded; table rebuilds depend on combinations.", "anchors": ["butane_core/src/db/sqlite.rs: create_migration_sql, sql_for_op, add_column, remove_column, change_column, copy_table"]}
{"id": "C25", "title": "PostgreSQL migration scripts reach the target schema", "statement": "Executing the statements generated for PostgreSQL on a database with the old schema yields tables whose columns have the type, nullability, uniqueness, key, default and reference attributes of the new schema.", "quantifier": "every pair of schemas", "why_tests_cant": "All combinations of attribute changes.", "anchors": ["butane_core/src/db/pg.rs: create_migration_sql, sql_for_op, change_column, add_column, create_table"]}
{"id": "C26", "title": "Turso executes a multi-statement script as the statements it was generated from", "statement": "Splitting a generated script into statements gives back exactly the generated statements, and line wrapping of long statements does not change their meaning.", "quantifier": "every script", "why_tests_cant": "All texts, in particular ones with separators inside literals.", "anchors": ["butane_core/src/db/turso.rs: execute, create_table, copy_table"]}
{"id": "C27", "title": "Filtering across relations finds exactly the related objects", "statement": "matches on a foreign key selects the objects whose referenced object satisfies the inner filter; contains on a many-to-many field selects the objects related to at least one object satisfying the inner filter.", "quantifier": "every database content and every inner filter, nested to any depth", "why_tests_cant": "Nested subqueries over arbitrary data.", "anchors": ["butane_core/src/query/fieldexpr.rs: subfilter, subfilterpk, contains, containspk", "butane_core/src/db/helper.rs: sql_for_expr"]}
{"id": "C28", "title": "Turso's subquery elimination preserves query results", "statement": "Replacing subqueries by the list of values they select leaves the result of a filter unchanged on every row, and no subquery remains in what is sent to the engine.", "quantifier": "every filter and every database content", "why_tests_cant": "All nestings of subqueries and connectives.", "anchors": ["butane_core/src/db/turso.rs: transform_subqueries, query, delete_where"]}
{"id": "C29", "title": "Saving then loading gives the object back", "statement": "After save succeeds, get by the object's key returns an equal object, every other object of the table is unchanged, and after delete get reports that there is no such object.", "quantifier": "every model, object and table content", "why_tests_cant": "All tables and histories.", "anchors": ["butane_core/src/lib.rs: DataObjectOps::save, get, try_get, delete", "butane_core/src/codegen/dbobj.rs"]}
{"id": "C30", "title": "Automatic keys are assigned once and saves never duplicate an object", "statement": "The first save of an object with an automatic key inserts one row and records the key the database chose; each later save changes that row and never the key; the number of rows grows by exactly one over any sequence of saves. A save of an object whose row is missing stores it.", "quantifier": "every sequence of saves interleaved with other operations", "why_tests_cant": "Histories of unbounded length.", "anchors": ["butane_core/src/lib.rs: DataObjectOps::save", "butane_core/src/autopk.rs"]}
{"id": "C31", "title": "Generated model code pairs every field with its own column", "statement": "For every model accepted by the derive macro, the column lists and the value lists it generates line up field by field, and reading a row that was written from an object reconstructs each field from its own column; many-to-many fields take no column.", "quantifier": "every model definition", "why_tests_cant": "All field lists, key positions and kinds.", "anchors": ["butane_core/src/codegen/dbobj.rs: impl_dbobject, impl_dataresult, rows_for_from, verify_fields", "butane_core/src/codegen/mod.rs: pk_field"]}
{"id": "C32", "title": "Rust values survive conversion to SQL values", "statement": "Converting a value of a supported field type to its SQL value and back yields the same value; a SQL value outside the type's range or of another kind is rejected with an error rather than silently altered.", "quantifier": "every value of every supported type; every SQL value", "why_tests_cant": "Whole integer ranges and all nested options.", "anchors": ["butane_core/src/sqlval.rs: ToSql, FromSql, Option", "butane_core/src/uuid.rs"]}
{"id": "C33", "title": "SQL values survive storage in each backend", "statement": "Writing a SQL value to a column of its type and reading it back yields the same value, for each backend's value representation; reading a column with an incompatible type is an error.", "quantifier": "every SQL value and backend", "why_tests_cant": "All values.", "anchors": ["butane_core/src/db/sqlite.rs: sqlvalref_to_sqlite, sql_valref_from_rusqlite", "butane_core/src/db/turso.rs", "butane_core/src/db/pg.rs: sql_val_from_postgres", "butane_core/src/sqlval.rs: SqlValRef, is_compatible"]}
{"id": "C34", "title": "Automatic keys compare and initialise consistently", "statement": "Two automatic keys are equal exactly when both are initialised to the same value; initialising sets the value once and later attempts have no effect; writing an uninitialised key to the database is refused, not written as a value.", "quantifier": "every sequence of operations on keys", "why_tests_cant": "Laws over all values and sequences.", "anchors": ["butane_core/src/autopk.rs", "butane_core/src/sqlval.rs: PrimaryKeyType::initialize"]}
{"id": "C35", "title": "A foreign key always denotes one fixed object", "statement": "Whatever sequence of load, get, pk, clone and compare operations is performed, a foreign key's primary key never changes, get returns the object with that key once loaded, a failed load leaves it usable, and equality of foreign keys is equality of the keys they denote.", "quantifier": "every sequence of operations, every database behaviour during load", "why_tests_cant": "Interleavings of lazy loading with failures.", "anchors": ["butane_core/src/fkey.rs", "butane_core/src/util.rs: get_or_init_once_lock"]}
{"id": "C36", "title": "A many-to-many field saves exactly the requested changes", "statement": "After adds and removes on one object's many-to-many field and a save, the objects related to that owner are the former ones plus the added minus the removed ones, and no other owner's relations change; if the save fails, the pending changes are still pending.", "quantifier": "every sequence of add, remove, set, load, save, delete on any number of owners", "why_tests_cant": "Operation histories over several owners.", "anchors": ["butane_core/src/many.rs: Many::add, remove, save, set, delete, load"]}
{"id": "C37", "title": "Loading a many-to-many field reflects the relation", "statement": "load returns exactly the objects currently related to the owner together with the pending additions and without the pending removals, each once, and after a save a load reflects the saved state.", "quantifier": "every sequence of operations on the field", "why_tests_cant": "Cache invalidation over histories.", "anchors": ["butane_core/src/many.rs: load, load_ordered, get, load_query_uncached"]}
{"id": "C38", "title": "Transactions are all-or-nothing and single-use", "statement": "The effects of operations in a transaction become visible exactly if commit succeeds; rollback, failure or dropping the transaction discards them all; after commit or rollback every further use of the transaction is an error and changes nothing.", "quantifier": "every sequence of operations and every point of commit, rollback, drop or failure", "why_tests_cant": "Histories and crash points.", "anchors": ["butane_core/src/db/mod.rs: Transaction", "butane_core/src/db/sqlite.rs: SqliteTransaction", "butane_core/src/db/pg.rs: PgTransaction", "butane_core/src/db/turso.rs: TursoTransaction"]}
{"id": "C39", "title": "The async adapter runs each call once, in order, on one thread and returns its own result", "statement": "Under every schedule of clients and worker, calls made through an async adapter execute one at a time in the order they were sent, each awaiting client receives the result of its own call, the wrapped connection is freed exactly once after all calls on it, and the worker stops only when no adapter or transaction uses it any more.", "quantifier": "every schedule of any number of calls, transactions and drops", "why_tests_cant": "Schedules cannot be enumerated.", "anchors": ["butane_core/src/db/adapter.rs: AsyncAdapterEnv, AsyncAdapter"]}
{"id": "C40", "title": "Running synchronous code on an async connection gives the connection back", "statement": "with_sync runs the closure on the real connection and afterwards the async connection is usable again whether the closure succeeds or fails; if it cannot be given back every later operation reports a poisoned connection instead of acting on another one.", "quantifier": "every closure outcome and every later operation sequence", "why_tests_cant": "All outcomes incl. panics at every point.", "anchors": ["butane_core/src/db/mod.rs: ConnectionAsync::with_sync", "butane_core/src/db/dummy.rs"]}
{"id": "C41", "title": "Connection strings are routed to the right backend unambiguously", "statement": "A URL or key-value connection string is assigned to the backend its scheme or syntax names, the rest of the string is preserved, adding a parameter keeps the string well-formed and all earlier parameters, and a connection specification survives being saved and loaded.", "quantifier": "every connection string", "why_tests_cant": "All strings.", "anchors": ["butane_core/src/db/mod.rs: ConnectionSpec::try_from, add_parameter, save, load, get_backend"]}
{"id": "C42", "title": "Iterating a result visits each row once, in order", "statement": "Iterating a buffered result returns each row exactly once in query order, and current returns the row most recently returned by next.", "quantifier": "every result set and every sequence of next and current calls", "why_tests_cant": "Arbitrary call sequences.", "anchors": ["butane_core/src/db/connmethods.rs: VecRows, VecRow, MapDeref, vec_from_backend_rows"]}
{"id": "C43", "title": "CLI migrate and rollback to a name stop exactly there", "statement": "Migrating to a named pending migration applies exactly the pending migrations up to it; rolling back to a named applied migration downgrades exactly the applied ones after it, newest first; any other name is reported as an error and changes nothing.", "quantifier": "every chain, every applied prefix and every name", "why_tests_cant": "All histories and names.", "anchors": ["butane_cli/src/lib.rs: migrate, unmigrate_to, unmigrate_latest"]}
{"id": "C44", "title": "CLI maintenance commands keep the migration chain meaningful", "statement": "Adding, removing or regenerating backends and collapsing migrations keep the order and the schema of every migration; collapsing leaves one migration with the schema of the last applied one, recorded as applied.", "quantifier": "every chain and backend set", "why_tests_cant": "All histories.", "anchors": ["butane_cli/src/lib.rs: add_backend, remove_backend, regenerate_migrations, collapse_migrations"]}
{"id": "C45", "title": "Derived field types round-trip", "statement": "For every enum with distinct variants and every single-field wrapper accepted by the derive macro, converting to SQL and back yields the same value, and text that is not a variant's name is rejected.", "quantifier": "every enum definition and every text", "why_tests_cant": "All definitions and strings.", "anchors": ["butane_codegen/src/lib.rs: derive_field_type_for_enum, derive_field_type_for_newtype"]}
{"id": "C46", "title": "The many-to-many table name used at run time is the one created by migrations", "statement": "For every model and many-to-many field, the table the field reads and writes at run time is the one the migration creates, its owner column refers to the owning table's key and its has column has the type of, and refers to, the other model's key.", "quantifier": "every model with many-to-many fields", "why_tests_cant": "All models.", "anchors": ["butane_core/src/migrations/adb.rs: create_many_table", "butane_core/src/codegen/dbobj.rs: many_table_lit", "butane_core/src/codegen/migration.rs: create_atables"]}
{"id": "C47", "title": "The schema recorded for a model has the columns its code uses", "statement": "The table recorded for a model has exactly the columns the generated code selects and writes, in the same order, with the type of the field; optional fields are nullable and others are not, exactly the key field is the primary key and it is auto exactly when its type is an automatic key.", "quantifier": "every model definition", "why_tests_cant": "All models.", "anchors": ["butane_core/src/codegen/migration.rs: create_atables", "butane_core/src/codegen/mod.rs: get_deferred_sql_type, pk_field", "butane_core/src/codegen/dbobj.rs"]}
{"id": "C48", "title": "A foreign key can be shared between threads", "statement": "When several threads use the same foreign key at once, every successful load returns the same object under every interleaving, a key or object once present never changes, and no thread panics.", "quantifier": "every number of threads and every interleaving of their steps, every database answer", "why_tests_cant": "Depends on the schedule.", "anchors": ["butane_core/src/fkey.rs: load, ensure_valpk", "butane_core/src/util.rs: get_or_init_once_lock"]}
{"id": "C49", "title": "The current schema is what was recorded last, and describing a migration tells every change", "statement": "After any history of compiling models, deriving field types, deleting tables and cleaning, the current schema consists of the table and type last recorded under each name and nothing else is changed; wherever the process stops it reads as recorded up to there or is refused; after a clean, compiling all models in any order gives exactly their tables. Describing a migration lists every added, removed and changed table and column with the old and new value of each changed property, and nothing else.", "quantifier": "every history of commands, every stop point, every order of compilation and every chain of migrations", "why_tests_cant": "All histories and crash points.", "anchors": ["butane_core/src/codegen/migration.rs: write_table_to_disk", "butane_core/src/codegen/mod.rs: add_custom_type", "butane_core/src/migrations/fsmigrations.rs: add_type, add_modified_table, delete_table, clear_current", "butane_core/src/migrations/memmigrations.rs: MemMigration", "butane_cli/src/lib.rs: delete_table, clean, describe_migration, print_ops"]}
{"id": "C50", "title": "Processes recording types in the current schema at the same time lose nothing", "statement": "When any number of processes record types in, add tables to, and read the current schema of a migrations directory at the same time, and some of them are killed anywhere, there is an order of the successful recordings such that the types on disk, once nobody is under way, are exactly those recorded in that order on top of the initial ones; a process that was told its type is recorded is in that order; a reader gets the types of a beginning of that order, including everything recorded before it started; a process fails only because another was killed or because tables are being written; and no set of processes can block each other for ever.", "quantifier": "every number of processes, job of each, initial content, interleaving of their steps and set of killed processes", "why_tests_cant": "A test sees a few interleavings of two processes; lost updates and broken locks appear only for rare interleavings and crash points.", "anchors": ["butane_core/src/migrations/fsmigrations.rs: FsMigration::add_type, lock_exclusive, lock_shared, db, write_contents, add_modified_table, MigrationLock, clear_current"]}
{"id": "C51", "title": "Deploying created migrations leaves the database with the schema asked for, through any failures", "statement": "Take any sequence of schemas requested one after the other, whose migrations are created in the in-memory store or on disk for SQLite or Turso, and any sequence of runs of migrate and unmigrate on an initially empty database, each interrupted, failing or stopped at any calls. Provided each single change is one that C24 covers, the database always has exactly a beginning of the created migrations recorded as applied, its tables are those of the schema of the last of these, its rows are those of before carried through the schemas one at a time, in both directions, and tables butane does not know are untouched; whenever migrate succeeds the tables are those of the schema requested last, and whenever unmigrate succeeds no table of a schema is left. Without failures, on a database ready for each of the changes, both succeed.", "quantifier": "every sequence of schemas, backend list, store, sequence of commands, failure plan, and content of the database", "why_tests_cant": "It composes the difference of schemas, the text of the scripts, their parsing and execution by the engine, the transaction and the bookkeeping, over all histories and failure points.", "anchors": ["butane_core/src/migrations/mod.rs: Migrations::migrate, unmigrate, create_migration_to, apply, downgrade", "butane_core/src/migrations/memmigrations.rs", "butane_core/src/migrations/fsmigrations.rs", "butane_core/src/db/sqlite.rs: execute, create_migration_sql", "butane_core/src/db/turso.rs: execute, create_migration_sql"]}
{"id": "C52", "title": "What is recorded in the migrations directory reads back, and a file cut short is never misread", "statement": "For every table, type file, migration information, current-state file and set of in-memory migrations that butane can produce, whatever characters its names and texts have, the JSON text written for it can be read and gives exactly what was written; the order of members and unknown members do not matter and missing optional members have their stated default; and a file cut anywhere by a crash is refused when read, never taken for something else (except that the newline at its end may be missing). Integer defaults of the whole 64-bit range and real defaults read back as the same value.", "quantifier": "every schema, migration information and store with any strings, and every point at which a file is cut", "why_tests_cant": "Strings that need escaping, extreme numbers and cut points are unbounded; the tests write and read a handful of tables.", "anchors": ["butane_core/src/migrations/fsmigrations.rs: write_contents, write_info, add_modified_table, add_type, db, migration_from, MigrationsState", "butane_core/src/migrations/memmigrations.rs: MemMigrations::from_json", "butane_core/src/migrations/adb.rs: Serialize and Deserialize of ATable, AColumn, ARef, DeferredSqlType", "butane_core/src/sqlval.rs: SqlVal", "butane_cli/src/lib.rs: CliState::load, CliState::save"]}
{"id": "C53", "title": "Migrations embedded in a program are those of the migrations directory", "statement": "After embed succeeds, the program compiled from the source file it wrote has exactly the migrations of the directory: the same ones in the same order, each with the same predecessor, schema and scripts; the directory is not changed. The other commands renew the embedding exactly when there is one, and a failure changes nothing.", "quantifier": "every migrations directory (any chain, any names, any texts in defaults and scripts), every state of the tool", "why_tests_cant": "The file is Rust source that contains arbitrary text: whether it is read back by the compiler depends on characters no test has in its schemas.", "anchors": ["butane_cli/src/lib.rs: embed, update_embedded, CliState", "butane_core/src/migrations/mod.rs: copy_migration", "butane_core/src/migrations/memmigrations.rs: MemMigrations, from_json"]}
{"id": "C54", "title": "Deploying created migrations on PostgreSQL leaves the database with the schema asked for, through any failures", "statement": "Take any sequence of schemas requested one after the other, whose migrations are created in the in-memory store or on disk for PostgreSQL and any other backends, and any sequence of runs of migrate and unmigrate on a database that may already contain tables of others, each interrupted, failing, refused by the engine or stopped at any calls. Provided each single change is one that C25 covers and no name is in the way of another, the database always has exactly a beginning of the created migrations recorded as applied, its catalogue has the tables of the schema of the last of these with their columns, keys, references and defaults, and the tables of others are as they were; whenever migrate succeeds the tables are those of the schema requested last. Without failures, when the catalogue is ready for each of the changes, migrate and unmigrate succeed.", "quantifier": "every sequence of schemas, backend list, store, sequence of commands, failure plan, content of the catalogue, and way in which PostgreSQL names constraints and refuses statements", "why_tests_cant": "It composes the difference of schemas, the text of the scripts, their execution by PostgreSQL, constraint names, the transaction and the bookkeeping, over all histories and failure points; the tests run two or three fixed steps.", "anchors": ["butane_core/src/migrations/mod.rs: Migrations::migrate, unmigrate, create_migration_to, apply, downgrade", "butane_core/src/migrations/memmigrations.rs", "butane_core/src/migrations/fsmigrations.rs", "butane_core/src/db/pg.rs: execute, create_migration_sql, sql_for_op"]}
{"id": "C55", "title": "On a deployed SQLite database, statements are refused only for duplicate keys or missing references, and what was written is kept and loaded", "statement": "After any created migrations have been deployed on SQLite, inserting, upserting, updating and deleting rows of the models with values of their columns' kinds succeeds unless the rows asked for would have a key or unique value twice, or a reference to a row that does not exist; then it is refused and nothing changes. Otherwise the database holds exactly the rows asked for (with the generated number where the key is left out), nothing else changes, and every query gives exactly what it should for these rows, value for value. This holds for any number of calls, later migrations find the database they need, and the value of a field of a model is always one its recorded column takes.", "quantifier": "every sequence of schemas and migrations, every deployed schema, every content, call, value, query, filter and sequence of calls", "why_tests_cant": "It composes the recorded types, the declared tables, the text of the statements, the engine's storage classes, STRICT and NOT NULL checks, keys and references, and the conversion back, for all values and histories; a test stores a few values.", "anchors": ["butane_core/src/db/sqlite.rs: insert_only, insert_or_replace, update, delete_where, query, sqlvalref_to_sqlite, sql_valref_from_rusqlite, define_column", "butane_core/src/db/helper.rs", "butane_core/src/migrations/mod.rs: migrate", "butane_core/src/codegen/mod.rs: get_deferred_sql_type"]}
{"id": "C56", "title": "The key returned for an inserted row is the key of that row", "statement": "Inserting a row and asking for its key, as saving an object with a generated key does, either is refused and changes nothing (the row would repeat a key or refer to a row that does not exist), or adds exactly that row and returns the value of the new row's key, on SQLite and on Turso, whatever other rows there are, whatever the names of the columns, and whether the key was generated or given.", "quantifier": "every schema, content of the database, row and engine choice of the next number", "why_tests_cant": "The key is read back by a second statement that identifies the row by its number; whether it finds the right row depends on the names of the columns and on the values in all other rows.", "anchors": ["butane_core/src/db/sqlite.rs: insert_returning_pk", "butane_core/src/db/turso.rs: insert_returning_pk", "butane_core/src/lib.rs: save"]}
{"id": "C57", "title": "Objects stored before a migration are there after it, through any life of the database", "statement": "Take any life of a SQLite or Turso database: the program inserts, updates and deletes rows, migrations are deployed and undone, calls are refused, deployments fail or are stopped anywhere, in any order and any number of times. If in each change of schema the columns that stay keep their kind (or 32-bit integers become 64-bit), become neither key nor reference, and new columns are neither and take their default, then at every moment the database holds exactly the rows that the accepted calls made, carried from schema to schema: every row of every table that stays is there, in order, with the values it had in the columns that stay and the defaults in those that are new; no key is there twice and every reference has its row; and the schema is that of the migration recorded last, so that the next calls succeed and fail as that schema says.", "quantifier": "every sequence of schemas, every sequence of calls, deployments and undoings with failures anywhere, every content of the database", "why_tests_cant": "It composes stored values, the scripts of the migrations, rebuilds of tables, constraints and failures over all histories; a test runs one fixed history with a few rows.", "anchors": ["butane_core/src/migrations/mod.rs: migrate, unmigrate", "butane_core/src/db/sqlite.rs: execute, create_migration_sql, insert_only, insert_or_replace, update, delete_where", "butane_core/src/db/turso.rs: create_migration_sql", "butane_core/src/migrations/adb.rs: diff"]}
{"id": "C58", "title": "An object saved on a deployed SQLite database is got back equal", "statement": "Take any model on a SQLite database that has its tables with any rows. If saving an object with values of the columns' kinds succeeds, then getting the object by its key returns an object with the same field values and relations, whatever the values, names, other rows and the choices of the engine; the saved object is unchanged but for a key the database made up, which no stored object had; its relations hold what was added to and not removed from them; every other object is got as before; and when the save of an object without relations is refused nothing has changed. After a successful delete the object is not found and every other object is got as before; a refused delete changes nothing.", "quantifier": "every model the macro accepts, every schema, content of the database, object, key and engine choice", "why_tests_cant": "It composes the generated code, the text of the statements, the engine's checks and storage classes, the generated keys, the relation tables and the conversion back, for all values and contents; a test saves a few objects.", "anchors": ["butane_core/src/lib.rs: DataObject::save, delete, get, try_get", "butane_core/src/many.rs: save, ensure_init", "butane_core/src/codegen/dbobj.rs", "butane_core/src/db/sqlite.rs: insert_returning_pk, insert_only, insert_or_replace, update, delete_where, query", "butane_core/src/query/mod.rs: Query::load"]}
{"id": "C59", "title": "After any history of saves and deletes on a deployed SQLite database, get finds each object as it was saved last", "statement": "Take any models on a SQLite database that has their tables, and any sequence of saves and deletes of objects of these models, in any order, on any of them, with calls that are refused in between. At every moment, getting by any key returns an object with the field values of the last successful save under that key, and finds no object if there was none since the key was deleted or ever; a key the database makes up is never that of an object that is there; saves of one model never disturb the objects of another.", "quantifier": "every set of models, every schema and content of the database, every sequence of calls, succeeding or failing, every object and key", "why_tests_cant": "Unit tests run one short sequence on a fresh table; the claim is an invariant over all sequences on several tables, including refused calls whose relations were half written.", "anchors": ["butane_core/src/lib.rs: DataObject::save, delete, get", "butane_core/src/many.rs: save", "butane_core/src/codegen/dbobj.rs", "butane_core/src/db/sqlite.rs: insert_returning_pk, insert_only, insert_or_replace, update, delete_where, query"]}
{"id": "C60", "title": "A query of a model on a deployed SQLite database returns exactly the stored objects it asks for", "statement": "Take any model on a SQLite database that has its tables. After any history of saves and deletes of its objects and those of other models, that began with empty tables and in which no save of an object of the model failed halfway, the table holds one row for each object saved and not deleted since. Loading any query of the model then succeeds and returns objects with the field values of exactly those that satisfy the query's filter, in an order its sort terms allow, from its offset on and at most as many as its limit; loading the first returns the first of these or nothing if there is none; and deleting by a query removes exactly the objects that satisfy its filter, or is refused because something refers to one of them and then changes nothing.", "quantifier": "every model the macro accepts, every schema, history, object, filter, sort order, limit and offset, and every choice of the engine among the orders allowed", "why_tests_cant": "Unit tests load a few objects with a few filters; the claim relates every filter and order, through the text of the statement and the conversion of each row, to the whole history that led to the rows.", "anchors": ["butane_core/src/query/mod.rs: QueryOps::load, load_first, delete, QueryOpsInternal::fetch", "butane_core/src/lib.rs: DataObject::save, delete", "butane_core/src/codegen/dbobj.rs", "butane_core/src/db/sqlite.rs: query, delete_where"]}
{"id": "C61", "title": "Loading a relation on a deployed SQLite database gives exactly the stored objects related to the owner", "statement": "Take two models on a SQLite database that has their tables, the first with a many-to-many relation to the second. Loading the relation of an object always succeeds and returns objects with the field values of exactly those stored objects whose key the relation table has for the owner, in the order of their keys if that is asked for, followed by those added and yet to be saved; and it remembers them. Once the owner is saved, the relation loads as exactly the stored objects that were related to it before or were added, and were not removed. Setting the relation to a list makes it load as exactly the stored objects with the keys of the list; deleting it leaves the owner related to none, or is refused and changes nothing; both leave the relations of all other objects and all other tables as they were.", "quantifier": "every pair of models the macro accepts, every schema and content of the database, owner, list of objects, order and choice of the engine among the results allowed", "why_tests_cant": "The result goes through a nested query in text, the engine's comparison of keys, the relation table written by other calls and the conversion of each row; tests relate two or three objects on fresh tables.", "anchors": ["butane_core/src/many.rs: load, load_ordered, query, set, delete, save, add", "butane_core/src/lib.rs: DataObject::save", "butane_core/src/query/mod.rs: QueryOps::load", "butane_core/src/db/sqlite.rs: query, insert_only, delete_where"]}
{"id": "C62", "title": "Objects and relations on a deployed Turso database behave as on SQLite", "statement": "Take models on a Turso database that has their tables. Saving and deleting an object, and saving, setting and deleting a relation, do to the database and to the object exactly what they do on SQLite. An object that was saved is got back with the same field values; after any history of saves and deletes get finds each object as it was saved last and none that was deleted or never saved. A query gives exactly the stored objects it asks for, in an order it asks for, even if its filter has subqueries, which the engine does not take; loading a relation gives exactly the stored objects related to the owner. Deleting by a query removes the rows the query asks for or is refused because others refer to them.", "quantifier": "every model the macro accepts, every schema, content of the database, object, query, relation and history, and every connection that answers statements without subqueries as the engine does", "why_tests_cant": "The Turso backend rewrites each subquery into a list of values by further statements and converts values on the way; tests run a few fixed queries on fresh tables.", "anchors": ["butane_core/src/db/turso.rs: query, insert_returning_pk, insert_only, insert_or_replace, update, delete_where, transform_subqueries", "butane_core/src/lib.rs: DataObject::save, get, delete", "butane_core/src/query/mod.rs: QueryOps::load, load_first, delete", "butane_core/src/many.rs: load, set, delete"]}
{"id": "C63", "title": "Objects saved before a migration are there after it, as the new version of the model has them", "statement": "Take a program whose models change from version to version: fields are added or dropped, or get a wider type, while the table and the key stay. Its versions save and delete objects, and the database is migrated to each next version's schema. Then get by the latest version finds each object that was saved and not deleted since, with the same key: fields that stayed have the values they had, or those read from what was stored if the type changed, new fields have their column's default, relations belong to the object; where no object was before, none is found. Queries of the new version find exactly these objects. The same holds after the migrate command, however far it gets.", "quantifier": "every pair of versions of every model the macro accepts, every content of the database, history of saves, deletes and migrations, and every failure while deploying", "why_tests_cant": "Tests migrate empty or one-row tables with a fixed pair of models; what happens to objects depends on all their values, on the defaults of all new columns and on where a deployment stops.", "anchors": ["butane_core/src/migrations/mod.rs: migrate", "butane_core/src/db/sqlite.rs: create_migration_sql, change_column, sql_for_op", "butane_core/src/db/helper.rs: column_default", "butane_core/src/lib.rs: DataObject::save, get, delete", "butane_core/src/query/mod.rs: QueryOps::load"]}
{"id": "C64", "title": "A new object that can be stored is stored, and no other", "statement": "Saving a new object whose relations have nothing pending succeeds exactly when each of its fields has a value to be stored, no stored object has its key or its value for a unique field, and each object it refers to is stored or is the object itself. With a key of its own the save succeeds exactly then. With a key the database makes up, which is no reference, the save succeeds then if the number made up is no stored object's, and never otherwise. If relations have partners to be added, the save succeeds under the same conditions provided each of these partners is stored.", "quantifier": "every model the macro accepts, every schema and content of the database it was deployed to, every object with fitting values", "why_tests_cant": "Tests save a few objects into small tables; whether a save goes through depends on all rows of the table and of the tables referred to, and on all values of the object.", "anchors": ["butane_core/src/lib.rs: DataObject::save", "butane_core/src/codegen/dbobj.rs: impl_dbobject", "butane_core/src/db/sqlite.rs: insert_only, insert_returning_pk, insert_or_replace", "butane_core/src/db/helper.rs: sql_insert_with_placeholders"]}
