# Formal model of butane: design

All paths are relative to `/repo`. The Coq development is in `rocq/theories`
(logical name `Verif`). Coq 8.16.1, standard library only.

## How the development is organised

* Model files: Gallina definitions that follow the Rust code function by function.
  Every definition carries a comment with the file and lines it models and the
  simplifications made.
* `*Spec.v` files (and `Sql`, `SqlStmt`, `Ddl`, `SqliteSem`, `PgSem`): specifications.
  They say what the English property talks about and do not use the model's helpers.
  `Sql`, `SqlStmt`, `Ddl`, `SqliteSem` and `PgSem` say how a database engine reads and
  executes text; they are written from the engines' manuals, not from butane.
* `*Proofs.v` and the other files: lemmas.
* `Props_*.v` files: the property theorems, each followed by `Print Assumptions`, with
  `Example`s beside them in which a concrete case meets the hypotheses.
* Where the faithful model violates a property, a theorem with suffix `_refuted`
  exhibits the witness. The largest fragment for which the property holds is proved
  beside it. `MANIFEST.json` then says `partial`.

Modelling conventions: `&mut self` methods return the new value. `Result` is the type
`outcome` (`Ok`, `Err`, `Panic`). A panic (`unwrap`, `unreachable!`, `expect`, index out
of bounds) is the explicit third outcome, never a default value. Loops without an
evident bound take fuel, and the theorems rule the out-of-fuel case out or exclude it
in the statement. `BTreeMap`s are strictly sorted association lists. Rust `String` is
Coq's byte `string`. Machine integers are `Z` with the casts (`as i32`, ...) written
out where the code casts.

## Trusted base

* Coq 8.16.1's kernel (`coqc`; `coqchk -o` accepts the compiled files, see below), and the
  correctness of the conversion tests `vm_compute` and `native` machinery the proofs
  use (`vm_compute` only).
* Axioms: none. `Print Assumptions` prints `Closed under the global context` for every
  theorem listed in `MANIFEST.json`. No axiom of the standard library is used, no
  `Variable`, `Hypothesis` or `Parameter` is declared outside a section, no kernel check
  is switched off, no obligation is left open.
* That the model says what the Rust code does. The correspondence is by reading; each
  definition cites its lines. Nothing was compiled or run from `/repo`. See also the section
  on how the model was compared with files butane has written.
* In `FsStore` a file holds the value written, and a torn file does not parse. This is what
  C52 proves of the text; the joint is by reading.
* That the specifications of the engines (`Sql`, `SqlStmt`, `Ddl`, `SqliteSem`, `PgSem`,
  the storage classes in `Backend`) say what SQLite, Turso/libSQL and PostgreSQL do with
  the statements that occur. These parts are behind every theorem that says what a
  statement means (C17, C21-C30, C36, C37).
* What theorems quantify over instead of computing. These are universally quantified in
  the theorem's own statement, with the assumptions made about them written there as
  premises: comparison of values by an engine, further reserved words, the effect
  of a migration script on a database, the schedule of threads, the fault plan (which call
  fails, where the process stops), the order in which directories are listed, the answer
  of the `url` parser, the answer of an engine about rows (PostgreSQL scripts), the printing
  and reading of JSON column values (C33, C45), floating-point formatting (the shortest decimal).

## What is modelled

| model file | code |
|---|---|
| `SqlVal` | `butane_core/src/lib.rs` `SqlType`, `sqlval.rs` `SqlVal` |
| `Adb` | `migrations/adb.rs`: schemas, difference, transformation, type resolution, `TypeKey` text |
| `Chain` | `migrations/mod.rs`, `migration.rs`: listing, applied, unapplied, applying, undoing, on a database with faults |
| `Store` | `migrations/mod.rs` `create_migration`, `copy_migration`; `memmigrations.rs` |
| `FsStore` | `migrations/fsmigrations.rs`, `fs.rs`, with the contents on disk between any two writes |
| `Lock` | the locking of `fsmigrations.rs` (`lock_exclusive`, `lock_shared`, `add_type`, `db`) under any interleaving of processes |
| `Query` | `query/mod.rs` expressions; `db/helper.rs` `sql_for_expr` |
| `Stmt` | `db/helper.rs` and the backends' `SELECT`, `INSERT`, `UPDATE`, `DELETE`, upsert text; query builder |
| `Macro` | `butane_codegen/src/filter.rs`, `query/fieldexpr.rs` |
| `Time`, `Literal` | date and time text; default values as SQL text, `db/helper.rs` |
| `Turso` | `db/turso.rs`: running subqueries first; splitting scripts at `;` |
| `Conv`, `Backend` | `sqlval.rs`, `uuid.rs` conversions; the value mapping of the three backends |
| `Fkey` | `autopk.rs`, `fkey.rs`, `util.rs`, also under any interleaving of threads |
| `Codegen` | `codegen/mod.rs`, `codegen/dbobj.rs`, `codegen/migration.rs`: what the macros generate |
| `Conn`, `Obj`, `Many` | `db/connmethods.rs` row operations; `lib.rs` save, get, delete; `many.rs` |
| `Rows` | `db/connmethods.rs` `VecRows`, mapping and adapters; `db/sqlite.rs` row source |
| `ConnSpec` | `db/mod.rs` connection strings and specifications |
| `Txn` | transaction objects of the three backends and of `db/mod.rs` |
| `WithSync` | `db/mod.rs` `with_sync`, `db/dummy.rs`, `db/sync_adapter.rs` |
| `Adapter` | `db/adapter.rs` as a transition system |
| `SqliteDdl`, `PgDdl` | DDL generation of the three backends |
| `Cli` | `butane_cli/src/lib.rs` migrate, rollback, list |
| `Deploy` | `db/sqlite.rs`, `db/turso.rs` `execute` of a migration script by the engine of `SqliteSem`, with `butane_migrations` in the database |
| `PgDeploy` | `db/pg.rs` `execute` of a migration script by the catalogue of `PgSem`, with `butane_migrations` in it |
| `KeyCall` | `db/sqlite.rs` and `db/turso.rs` `insert_returning_pk`: both statements; the second one's text is parsed and answered by `SqliteKey` (specification of row numbers: INTEGER PRIMARY KEY, last_insert_rowid(), a column that hides ROWID) |
| `Saved` | `lib.rs` `save`, `delete`, `get`, `try_get` with `many.rs` `save`, over the methods of any connection, in particular those of `db/sqlite.rs` |
| `Loaded` | `query/mod.rs` `load`, `load_first`, `delete` on a SQLite connection; the number `delete` returns is left out |
| `Related` | `many.rs` `load`, `load_ordered`, `delete`, `set` on a SQLite connection |
| `TursoSaved` | the same calls on a Turso connection: `turso.rs` `query`, `insert_*`, `update`, `delete_where` with `lib.rs`, `query/mod.rs`, `many.rs` on top |
| `DataCalls` | `db/sqlite.rs` `insert_only`, `insert_or_replace`, `update`, `delete_where` and the conversion of loaded rows, on the engine of `SqliteData` (specification of how SQLite changes rows: generated numbers, defaults, storage, NOT NULL, keys, references) |
| `Json`, `JsonForm` | JSON text as `serde_json` writes and reads it, and the serde forms of `adb.rs`, `sqlval.rs`, `custom.rs`, `fsmigrations.rs`, `memmigrations.rs`, `CliState` |
| `Embed` | `butane_cli/src/lib.rs` embed, update_embedded, the state of the tool; the source file as a Rust compiler reads it |
| `RepoFiles`, `RepoModel`, `Replay` | not code: the files committed in four of the repository's example projects, and their reading and re-creation by the model |
| `Maint` | `butane_cli/src/lib.rs` add-backend, remove-backend, regenerate, collapse, detach, make, clean |
| `Current` | `butane_cli/src/lib.rs` delete table, clean, describe; `codegen/migration.rs` writing models; edits of `MemMigration` |

## What is not modelled

* Rust's type system, borrowing and lifetimes, except where the code breaks them by hand
  (`db/adapter.rs`: a cancelled future leaves dangling borrows, C39).
* Parsing Rust source: macros are modelled from the syntax tree on. The one exception is the
  raw string literal in the file `embed` writes.
* UTF-8 checks when files are read; texts are bytes.
* Drivers (`rusqlite`, `postgres`, `tokio-postgres`, `turso`), the `url`, `chrono`, `fs2` and
  `serde_json` crates beyond what the model files say about the functions called.
* TLS, connection pools (`r2d2`, `deadpool`), `cargo` metadata lookup in the CLI, argument
  parsing in `butane_cli/src/main.rs`, messages on stdout.
* `custom.rs` beyond the fact that a PostgreSQL custom type has a name: its values are not
  stored or compared. `db/macros.rs` (delegation only) and `butane/src` (re-exports).
* Time: no timeouts; liveness is stated as the existence of a continuing step or a
  decreasing measure, not as fairness over infinite runs.
* File systems: a write is a truncation followed by the contents; reordering of writes by
  the disk cache after a power loss is left out.

## Properties: model, statement, proof

* **C01 A computed migration reaches the target schema** (proved). Model `ADB`, `ATable`, `AColumn`, `diff`, `diff_table`, `transform_with` (`Adb`). Two schemas are the same when looking up any table and column name gives equal columns, up to the code's identification of `Known` and `KnownId` (`AdbSpec.same_schema`). Proof: per-operation lookup lemmas, induction over the sorted name sets.
  well-formed schemas; diff itself is total on all schemas
* **C02 No migration is produced exactly when nothing changed** (proved). Same model. `diff` is empty iff the schemas are the same, for schemas without NaN defaults.
  well-formed schemas exclude NaN defaults; C02_nan_default_refuted shows why
* **C03 Migration operations are dependency-ordered and non-redundant** (proved). Same model. Every operation occurs iff a difference exists, once, and the order of kinds is fixed.
* **C04 A downgrade undoes an upgrade at the schema level** (proved). Same model. `transform (diff b a)` after `transform (diff a b)` gives `a` back, from any equal schema.
* **C05 Type resolution always terminates and finds exactly the derivable types** (proved). `resolve_types` with fuel. `ResolveSpec` is an inductive derivability relation. Termination by a decreasing measure (unresolved columns and types plus absent resolver keys).
  termination for every schema; sound/complete on every schema of the shape the code assumes; crash exactly on the others
* **C06 Type resolution changes nothing but unresolved types** (proved). Same model: what is resolved already is untouched; a second resolution changes nothing.
* **C07 Foreign keys resolve to the referenced table's primary key** (proved). Same model: the reference and type of a resolved foreign key are the key of the table referred to.
  single resolution; C07_incremental_refuted is the finding that table-by-table resolution loses aliased references
* **C08 Type keys survive serialization and are totally ordered** (partial). `TypeKey` text over all byte strings, including the panic of `split_off`.
  round trip, injectivity and order proved; reading other strings may crash (C08_reading_refuted), so only the partial statement holds
* **C09 The migration list is the chain from first to latest** (partial). Abstract migration collections (`Coll`); listing takes fuel and terminates on acyclic collections. Spec `ChainSpec.chain`.
  Proved for every coherent store and every chain; also for stores where a predecessor is missing. Refuted outside: a missing predecessor silently truncates the list (C09_missing_predecessor_refuted), and reusing a name makes listing loop forever (C09_name_reuse_diverges_refuted).
* **C10 Applied and unapplied migrations partition the chain** (proved). Same. Applied and pending lists append to the chain, for every recorded prefix and any fault.
  For every chain and every recorded prefix, also when calls to the database fail; C10_last_applied_any_rows for arbitrary rows.
* **C11 Migrating is atomic per migration at every failure point and can be resumed** (proved). A database of tables and recorded names; each call may fail or the process may stop before or after it (`Chain.plan`). The effect of a script is an arbitrary function. Invariant over calls; any number of interrupted runs.
  For every fault plan (an error, or stopping before or after each call) and any number of interrupted runs. The effect of a script is an arbitrary function; hypothesis: scripts do not touch rows of butane_migrations.
* **C12 Unmigrating rolls back all applied migrations in reverse order** (partial). Same, for downgrading.
  Proved for every chain, prefix and fault plan. Refuted when a migration's info.json is unreadable: unmigrate stops early and reports success (C12_unreadable_info_refuted).
* **C13 Creating migrations maintains the chain** (proved). `Store` and `FsStore`: induction over histories of creations.
  In-memory and on-disk stores, histories of any length.
* **C14 A migration stored on disk gives back its full schema** (partial). `FsStore`: reading the schema of a stored migration in any listing order equals the schema it was created with; invariant over histories.
  Proved for every history with fresh names and every order in which directories are listed. Refuted when the directory of the new migration already exists (C14_reused_directory_refuted).
* **C15 A crash while creating a migration leaves the existing chain intact** (partial). Every file-system state between two writes of `fs_create_to` is one of three kinds, proved by tracking the trace of the monad `FsM`.
  Every crash point of every creation with a fresh name, and of every history: intact, complete, or in the window in which state.json is being replaced. In that window the claim is false (C15_torn_state_refuted).
* **C16 Embedding migrations preserves them** (proved). `copy_migration` into the in-memory store from any source view.
  copy_migration into memory from any source; the disk and memory sources are shown to meet the hypotheses.
* **C17 The SQL text of a filter means what the filter says** (partial). `sql_for_expr` to strings; the independent lexer, precedence parser and three-valued evaluator of `Sql` as specification. Induction over expressions; the parser is shown to return the intended tree.
  Proved for every filter whose brackets SQL does not need, over every engine, database and row. The unrestricted claim is false: OR inside AND, AND/OR inside NOT, empty conjunctions, reserved column names, empty IN lists on PostgreSQL and two joins are refuted.
* **C18 Bound values match their placeholders and user data never enters the SQL text** (partial). The text is a function of the shape of the filter only; the i-th placeholder stands for the i-th value.
  Text independence proved for every filter and query. Counting and order of placeholders proved for every supported filter and for all insert, update and upsert statements; a bare placeholder (public constructor) is refuted.
* **C19 PostgreSQL placeholders are numbered 1 to n** (partial). The `i8` counter of `db/pg.rs` with and without overflow checks.
  Proved up to 126 values (127 without overflow checks), and for any number in insert-or-update. Beyond that the i8 counter panics or wraps: refuted.
* **C20 The filter macro means the Rust expression** (partial). Macro expansion, then C17, against Rust's meaning of the expression (`MacroSpec`).
  Proved end to end (macro expansion, SQL text, evaluation) for every expression the macro accepts except invisible groups and copied conditions, whose grouping the SQL text loses (C20_group_refuted).
* **C21 Query builder results** (partial). Query builder calls and `SELECT`/`DELETE` text, parsed and executed by `SqlStmt`.
  Exact characterisation of load, load_first and delete for any sequence of builder calls, within the filters of C17. load_first ignores limit(0) and a negative limit is no limit on SQLite: refuted.
* **C22 Insert, update and upsert statements put each value in its own column** (partial). `INSERT`, `UPDATE` and upsert text, parsed and executed.
  Insert, update and upsert proved for all column lists (PostgreSQL within its placeholder counter). RETURNING with a reserved key name is refuted; SQLite's SELECT by last_insert_rowid is not parsed.
* **C23 Default values in migrations are written as the values they are** (partial). `sql_literal_value` and what the text denotes for the engine (`LiteralSpec`).
  Proved for null, booleans, integers, finite reals, texts without a quote, blobs and timestamps. Refuted for texts with quotes (which can extend the statement), dates, JSON and numbers that are not finite.
* **C24 SQLite migration scripts reach the target schema and keep the data** (partial). DDL text, parsed by `Ddl`, executed by `SqliteSem` on databases with rows. `MigrateSpec` says when a database has a schema and when rows survive. Invariant over the operations of a difference; `MigrateReady` proves that a ready database runs the script to its end.
  For every pair of declarable schemas and every database with the old schema: if the script runs, the result has the new schema and the old rows (new columns hold their default), C24_schema_and_data_partial; the script does run on every database that is ready for it (a list of conditions in MigrateSpec.ready), C24_migration_succeeds_partial; both also for Turso. Refuted outside: added references are lost; UNIQUE columns cannot be added or removed; tables with referring rows cannot be changed or dropped; key moves; temporary name clash; timestamp default unreadable; auto without key is not SQL. Added columns with a reference and defaults that are dates, JSON or timestamps are excluded.
* **C25 PostgreSQL migration scripts reach the target schema** (partial). DDL text, parsed by `Ddl`, executed on a catalogue by `PgSem`. Local lemmas per statement (`PgLocal`), per operation (`PgOps`), whole script (`PgMain`). That the script runs: each statement is accepted by the catalogue when the references around it are to keys that stay (`PgReady`; `pg_ready` in `PgSpec` lists what must hold, each item being the opposite of a finding below).
  Proved: for every pair of schemas whose names can be told apart and every database with the old schema, the script is written and read, and if it runs to its end the catalogue has the new schema: columns, types, nullability, numbering, unique and primary keys, references, changed defaults; removed tables are gone and other tables untouched. Proved too: the script does run to its end if nothing in the catalogue stands in its way (pg_ready), unless the engine refuses a statement because of the rows. Missing: the changes PostgreSQL scripts cannot express or carry out (the _refuted theorems: numbering changes, given-up or replaced primary key, dropped default of new tables, default of added columns, referred table dropped, bytes default, names that collide, are long or are capitalised keywords). Rows are not modelled.
* **C26 Turso executes a multi-statement script as the statements it was generated from** (partial). Splitting a script at `;` is shown to give the statements the script was made of.
  Proved for every list of operations that can be written and for every pair of declarable schemas whose added text defaults have no semicolon: what Turso sends are exactly the statements of the script, and, up to STRICT, those of SQLite's script, whatever the line breaks. Missing: defaults with a semicolon, refuted by C26_semicolon_default_refuted.
* **C27 Filtering across relations finds exactly the related objects** (partial). Subquery text and its evaluation, for `matches` and `contains`.
  matches proved in full for filters SQL needs no brackets in; contains proved unless the inner filter names a column owner or has, where the generated text is ambiguous (refuted).
* **C28 Turso's subquery elimination preserves query results** (partial). Turso runs subqueries first and puts the values in; equal to evaluating the subquery in place for any engine meeting stated assumptions, for which `TursoExample` is an instance.
  Proved for every filter SQL needs no brackets in whose subqueries contain no further subquery, for any engine that answers statements without subqueries and compares values by their stored form; also that no statement of such a query contains a subquery. A subquery inside a subquery is sent as it is, and deleting by a filter replaces nothing (both refuted).
* **C29 Saving then loading gives the object back** (partial). `Obj` over the statements of `Stmt` executed by `SqlStmt`.
  Get after save returns an equal object, other objects and tables are unchanged, delete removes exactly the object. Partial: for an automatic key that is already set the theorem needs the row to be there (C30_missing_row_refuted shows the code stores nothing otherwise); relations must be the object's own (C36_stale_owner_refuted).
* **C30 Automatic keys are assigned once and saves never duplicate an object** (partial). Same; histories of saves on an engine that numbers rows.
  First save, later saves and all histories of successful saves proved. Refuted: saving an object with a set automatic key whose row is missing stores nothing; a lost reply makes a retry store the object twice.
* **C31 Generated model code pairs every field with its own column** (proved). `Codegen`: generated `from_row`, column list, values, for every struct the macro accepts.
  For every struct definition the macro accepts, with any path resolver. Generic arguments only on a path's last segment.
* **C32 Rust values survive conversion to SQL values** (partial). `Conv`: `to_sql` and `from_sql` for each field type, casts explicit.
  round trip for all types except f32 NaN, unset automatic keys and nested options; integers out of range keep their low bits and f64 read as f32 gives the nearest f32 (both proved); findings: out-of-range integers and reals are silently altered, map members of another type panic
* **C33 SQL values survive storage in each backend** (partial). `Backend`: value to stored form and back, per backend.
  all values except NaN (SQLite, Turso become NULL) and PostgreSQL sub-microsecond timestamps; findings refuted: NaN, nanoseconds, reads within one storage class alter the value
* **C34 Automatic keys compare and initialise consistently** (proved). `Fkey`: `AutoPk` equality, order, initialisation.
* **C35 A foreign key always denotes one fixed object** (partial). `Fkey`: operations on a foreign key as a state machine, every history.
  every history; findings: comparing with an unset automatic key panics, any SQL value is accepted
* **C36 A many-to-many field saves exactly the requested changes** (partial). `Many` over the statements executed on rows; sequences and histories of any length.
  save = former + added - removed for the owner over any add/remove sequence, for every failure what stays pending, and over every history of add/remove/save/delete/set/load on any number of owners provided no save removes an object another owner also has. Refuted in general: a removal deletes every owner's relation, remove-then-add loses the add, a failed save drops the value it was storing. Also refuted: an object whose key was changed after loading keeps adding to the old key's relations (C36_stale_owner_refuted), and delete leaves the relation rows (C36_deleted_owner_refuted).
* **C37 Loading a many-to-many field reflects the relation** (partial). Same, for loading.
  load with an empty cache and no pending removal returns exactly the related and added objects, each once when nothing added is related already; after a save it reflects the saved state if the cache was empty. Refuted: pending removals ignored, added-again objects come twice, remove/load/save/load is stale, load_ordered does not sort pending additions.
* **C38 Transactions are all-or-nothing and single-use** (partial). `Txn`: calls on a transaction object, with refused statements and lost commands or answers at any point.
  All-or-nothing, invisibility before commit and single use are proved for all three backends, every call sequence and every loss of commands. Refuted as stated: a lost answer to COMMIT; PostgreSQL reports success for a commit after a refused statement; Turso leaves the transaction open after a refused commit and when dropped outside a tokio runtime, and panics when dropped on a current-thread runtime.
* **C39 The async adapter runs each call once, in order, on one thread and returns its own result** (partial). `Adapter`: labelled transition system of clients, channel, worker; invariants over all runs.
  Order, single execution, own results, progress, context lifetimes and shutdown are proved for every schedule including dropped futures and panics. Refuted as stated: a dropped future leaves its command queued with dangling borrows, a dropped transaction() leaks an open transaction, and a panic in one call kills the worker so that dropping the adapter panics.
* **C40 Running synchronous code on an async connection gives the connection back** (proved). `WithSync`: swapping connections around a closure that may fail or panic.
  Every closure, every outcome around it and every later history.
* **C41 Connection strings are routed to the right backend unambiguously** (partial). `ConnSpec`: string-level; `url` parsing is a parameter.
  Recognition, text kept, added parameters and saved files are proved. Refuted as stated: an upper-case scheme, a drive-letter path, '://' inside a key-value value, a URL the parser rejects, a parameter added after a fragment, and unquoted added values.
* **C42 Iterating a result visits each row once, in order** (partial). `Rows`: iterators as state machines, any call sequence.
  Refuted in part: on buffered results (PostgreSQL, Turso, async adapter) current returns the row after the one next returned (C42_buffered_current_refuted). Everything else is proved: next visits each row once in order for every call sequence on every backend, current is right on SQLite, load maps the rows in order up to the first failure, and loading through an async adapter equals loading directly.
* **C43 CLI migrate and rollback to a name stop exactly there** (partial). `Cli` on top of the chain model with faults.
  Migrating to a name, rolling back to a name or by one, and listing are proved over every chain, state and fault. Two parts of the English claim are false of the code and proved so: migrating to an unknown or already applied name applies everything pending (C43_migrate_unknown_name_refuted), and rolling back to a pending name panics instead of reporting it (C43_rollback_pending_name_refuted).
* **C44 CLI maintenance commands keep the migration chain meaningful** (partial). `Maint` on top of `FsStore`: what each command leaves (`MaintSpec.holds_chain`), when it is refused, when it completes; `C44_any_history` closes over histories.
  Proved for every store laid out as creation leaves it, every list of backends and every history of maintenance commands: what add-backend, remove-backend, regenerate, collapse, detach and make leave behind and when they are refused; C44_any_history carries the layout through any sequence. Not true as stated: collapse drops a pending migration, interrupted commands leave mixed stores, a collapse to an empty schema, regenerate on a store laid out otherwise, data-only migrations (the C44_..._refuted theorems are witnesses).
* **C45 Derived field types round-trip** (proved). `Codegen`: derived enums, wrappers and JSON types.
  Enums and wrappers as stated; C45_json_mismatch_refuted records that types stored as JSON panic on JSON of another shape.
* **C46 The many-to-many table name used at run time is the one created by migrations** (proved). `Codegen`: the two computations of the table name agree.
  C46_shared_table_refuted records that two models can share one table name.
* **C47 The schema recorded for a model has the columns its code uses** (partial). `Codegen`: recorded columns against generated code.
  Proved for every model except the type of a field whose derived type is written with its module, with a raw identifier, or named like a known type (refuted).
* **C48 A foreign key can be shared between threads** (partial). `Fkey`: threads as step machines over the once-cells, any interleaving.
  one object under every schedule; no panic for loads or when the key is stored; finding: concurrent to_sql of a key made from an object panics
* **C49 The current schema is what was recorded last, and describing a migration tells every change** (partial). Model what the macros and the CLI do to the directory of the current schema as programs on the file system of C14, any list of them after one another with every intermediate state; prove that the tables and types read are those of the last event that names them, by a relation between the directory and two maps that every command keeps; describe: characterise the lines by the difference of the schemas (C01). The in-memory migration: fold over edits.
  Proved for every history, stop point and order. Refuted parts: the table of a model that was removed or renamed stays; a file of types cut off by a crash blocks recording until clean; describing a migration without its predecessor panics; in memory a resolved type does not follow a later change of the key it refers to.
* **C50 Processes recording types in the current schema at the same time lose nothing** (partial). Modelled in `Lock`: the directory of the current schema with file identities, and the programs of recording a type, adding a table, reading the schema and cleaning as sequences of steps that are interleaved in any order, with kills anywhere. Proved by an inductive invariant over all schedules (the lock excludes, the file holds the types of an order of committed recordings, readers hold a prefix); absence of deadlock by exhibiting from every state a schedule that ends everybody. The lock error that is ignored while the directory is missing, the lock file that cleaning removes, the tables written without the lock and the file written in place are refuted.
  Proved for every interleaving and kill while the directory exists and is not removed, with absence of deadlock in general; refuted for the first types recorded (lock error ignored), for recordings during cleaning (lock file removed), for readers while tables are written (no lock), and after a kill in the middle of a write.
* **C51 Deploying created migrations leaves the database with the schema asked for, through any failures** (proved). `Deploy` joins the models: the engine of C24 executes the text of a stored script (parsed by the grammar of C23/C26) on a database that contains the table of applied migrations; the chain of C11/C12 runs over it with failures. Proved by induction over the chain: one applied migration is one `migrated` step of C24 (the scripts on disk are made from a schema equal to, not identical with, the one asked for, so C24 is first shown to respect that equality), and creation (C13, C14) leaves the scripts of each change. Any list of commands is then a walk through the schemas.
  Deploying and undoing the created migrations on SQLite and Turso, for any sequence of runs and failures, from both stores; each single change must be one that C24 covers (change_fine). C54 is the same for PostgreSQL.
* **C52 What is recorded in the migrations directory reads back, and a file cut short is never misread** (partial). `Json` is the text layer (writer, both layouts; reader with its number arithmetic on binary64 and its nesting limit), `JsonForm` the serde forms. Round trip by induction over values (`JsonRound`), through the forms of each type (`JsonSpec.storable` says which values: 64-bit integers, sorted maps, reals whose text reads as themselves). Reals: `JsonReal` proves that reading a decimal of at most 22 places and 53 bits gives the nearest f64. Cut files: a proper prefix of a written text has an unclosed bracket or string, which the reader refuses (`JsonTorn`). Reals outside the fast path of serde_json and infinite reals are refuted.
  Proved for all names, texts, integers and for every cut point. Real defaults: proved for every real whose shortest decimal has at most 22 places and 53 bits of digits; refuted in general, because serde_json is used without float_roundtrip (1e-30 reads back as the f64 before it), and an infinite default is written as null and refused when read.
* **C53 Migrations embedded in a program are those of the migrations directory** (partial). `Embed`: the text of the source file, how a Rust compiler reads a raw string literal, copying all migrations from the directory into the in-memory store, its JSON text. Proved from C16 (copying), C52 (text) and a lemma about when a JSON text contains a double quote followed by a number sign (exactly when one of its strings begins with the number sign, or has a double quote before one). Histories created by C14 meet the hypotheses. A text that begins with a number sign is refuted.
  Proved for every directory whose strings contain no double quote followed by a number sign in the JSON text, which is proved to be exactly when the compiled program has the text. Refuted for a default such as #ffffff, after which the generated source does not compile.
* **C54 Deploying created migrations on PostgreSQL leaves the database with the schema asked for, through any failures** (proved). `PgDeploy` is to PostgreSQL what `Deploy` is to SQLite and Turso: the catalogue of C25 executes the text of a stored script, and the table of applied migrations is one of its tables. `DeployWalk` proves the walk of C51 for any engine whose single steps are right; C25 gives the steps, after it is shown to respect equality of schemas and to leave room for the table of applied migrations. `others` are the tables of the database that butane does not know. Rows other than those of the table of applied migrations are not modelled, so that a statement refused because of them is one of the refusals the theorem ranges over.
  Deploying and undoing the created migrations on PostgreSQL, for any sequence of runs and failures, from both stores, beside tables of others; each single change must be one that C25 covers, with names that are not in each other's way (pg_change_fine). Of the rows only those of butane_migrations are modelled: a refusal because of rows is one of the refusals ranged over.
* **C55 On a deployed SQLite database, statements are refused only for duplicate keys or missing references, and what was written is kept and loaded** (proved). `DataCalls` runs the texts of C21/C22 on the tables that C51 leaves. The engine (`SqliteData`) parses the text, computes the rows by the semantics of statements of `SqlStmt`, and stores them as `SqliteSem` stores values, refusing NULL, duplicate keys and broken references. The values in the database are the written forms, so the proof relates rows that are written alike (`StoredRel`) and shows that comparing, filtering, assigning and sorting respect that; the engine is assumed to see only what is bound (`compares_stored`). `legal` is the condition for a refusal, `keeps` the invariant; deploying from nothing establishes it by induction over the walk of C51. The generated numbers are a parameter, which must fit the kind of the key (`numbers_fit`).
  Stated for the texts and conversions of the SQLite backend; the engine is specified in SqliteData. C55_value covers field types that do not depend on another model.
* **C56 The key returned for an inserted row is the key of that row** (partial). `KeyCall` adds the second statement of `insert_returning_pk` to the calls of C55. `SqliteKey` parses it and answers it from the rows: the number of a row is its INTEGER PRIMARY KEY if there is one, ROWID names a declared column of that name first. By C55 the new row is the last one and its key is not repeated, so exactly that row is found (`C56_key_partial`); Turso asks for the number itself (`C56_turso`). With a column called rowid SQLite compares that column: `C56_key_refuted`.
  Proved for tables without a column called rowid (in any letters) on SQLite, and for every table with one integer key on Turso. Refuted on SQLite with such a column: C56_key_refuted shows that the key of another row is returned, or the save fails although the row was added. The engine's number for the next row is a parameter; names are otherwise compared as written.
* **C57 Objects stored before a migration are there after it, through any life of the database** (proved). `CarriedSpec` says what a gentle change is, what becomes of a row (`row_after`), of all rows (`rows_after`), and what a life of a database is: calls of C55 and commands of C51 in any order (`life`, `lived`). From C24 the values stored for columns that stay are unchanged and new columns hold their default; together with C55's `keeps` this determines the rows after a change, their keys and references (`C57_change`). By induction over the migrations a deployment got through (`C57_deploy`), over all events (`C57_life`), and from migrations created on disk and an empty database (`C57_disk`).
* **C58 An object saved on a deployed SQLite database is got back equal** (partial). `Saved` writes the generated `save` and `delete` over any connection methods; with the methods of `Conn` they are those of C29 and C30, with those of `DataCalls`/`KeyCall` they run on the SQLite engine of C55. A simulation (`SavedProofs`) shows that each SQLite run is a run over `Conn` on the rows the database keeps, for some fates of the statements and the key the engine made up; so C29 and C30 carry over, and with C55 the statement of `get` returns those rows. `SavedSpec` says what it takes for a schema to have a model and for an object to fit. Partial because of the automatic key whose row is gone.
  Proved for every model, schema, content and object, except that the claim is false of the code for an object whose automatic key is set but whose row is gone: the save reports success and stores nothing (C58_missing_row_refuted). C58_round_trip_partial has that exception as a hypothesis.
* **C59 After any history of saves and deletes on a deployed SQLite database, get finds each object as it was saved last** (partial). `HistorySpec` says what each call teaches about one key (`Absent`, `Present o`, `Unclear` after a failed save), `history` is any sequence of calls on any of the models, and `found` is what `get` must answer. The invariant is that the rows agree with what is known; `save_any` shows that a save, whatever its result, touches only the rows with its object's key and its model's relation tables, and C58 gives the row of a successful save. C59_every_call shows that no call is left out of the histories.
  Any sequence of saves and deletes of objects of any number of models, refused calls included: get finds what was saved last. Partial because a save of an object whose automatic key is set but whose row is gone succeeds and stores nothing (C58_missing_row_refuted): after it there is still no object, as the step saved_nothing says. After a failed save of an object with relations nothing is claimed about that object.
* **C60 A query of a model on a deployed SQLite database returns exactly the stored objects it asks for** (partial). `LoadedSpec` pairs the rows of a table with the objects they are rows of (`table_of`) and says which of these a query asks for (`query_finds`) on the pairs, without reference to the statement. C55_query gives the rows the engine returns for the text of the statement; C58 and C42 that each is converted to an object equal to the one stored. C60_history_partial carries the invariant of C59 to the whole table: there is a row for each key known to be present and for no other.
  Proved for filters without the groups of C17's findings, which SQLite reads differently (C17_*_refuted). load_first leaves the query's limit aside (C21_load_first_ignores_limit_refuted), and C60_load_first_partial says so. A save that failed after its row was written (C58) leaves the object unclear; such histories are left out of C60_history_partial, not of C60_load_partial.
* **C61 Loading a relation on a deployed SQLite database gives exactly the stored objects related to the owner** (proved). `RelatedSpec` says with the rows of the relation table and the keys of the stored objects which objects are related (`related_in`) and that a result is exactly those of the stored objects (`exactly_those`). Loading is two queries of C60, whose filters (a nested query, a list of keys) are read off with the comparison of keys; saving is C58; setting and deleting are simulated call by call by the calls of C36, with the engine refusing where SQLite does.
  The engine's comparison is exact on the keys of each model (deployed), as in C58 to C60; the relation table takes the keys of both models. A removal made by another owner's save can take away relations of this one: that is C36's finding and not part of this claim.
* **C62 Objects and relations on a deployed Turso database behave as on SQLite** (partial). The changes of `TursoSaved` are proved equal to those of SQLite, state by state: the texts are the same and none has a SELECT (so the engine takes it), and the values convert. Queries: the answer of a connection (`connected`: statements without subqueries are answered as the engine would) is shown to be one SQLite could give, with C28 for the subqueries; then C58 to C61 say what that is. Histories are converted step by step into those of C59.
  C62_delete_refuted: a delete by a query whose filter has a subquery is refused on Turso, although loading by the same query works and SQLite deletes. Loading needs filters with no subquery in a subquery (C28_nested_subquery_refuted); round trip and histories need that a numbered object's row exists (C58_missing_row_refuted). Saving, deleting and setting objects and relations are proved equal to SQLite; loading relations is proved in full.
* **C63 Objects saved before a migration are there after it, as the new version of the model has them** (partial). `EvolvedSpec` says when a model is a later version of another and what it makes of an object. A row that stands for an object becomes, by C57, a row that stands for what the object becomes; so what is known of the objects (C59) goes along with each change, and `get` and `load` find it (C59, C60). Lives alternate histories and migrations, by induction; the migrate command is C51.
  Proved for every history of saves, deletes and migrations and for the migrate command. Partial because C59 is: a save of an object whose automatic key is set and whose row is gone succeeds and stores nothing (C58_missing_row_refuted), and queries are limited as in C60. Types may change where the new type can read what was stored; a change of the key's type is not covered.
* **C64 A new object that can be stored is stored, and no other** (proved). `AcceptedSpec` says when an object has a value for each field, clashes with no stored row and refers to rows that are there. C58 turns the save into one row that is asked for; C55 says that it is written unless the result is not a legal content. The two agree: a legal content with one row more is legal exactly if that row clashes with no other and its references are there. For partners to be added, each pair written is shown to refer to the row just written and to a stored partner.
  C64_own_key (keys of the object's own) and C64_new_number (keys the database makes up) are equivalences for objects whose relations have nothing pending; C64_no_other says that no other new object is stored. C64_own_key_related and C64_new_number_related add that an object with partners to be added is stored if each partner is: these give the direction from the conditions to success only, and suppose that the relation tables have no key or unique column, as the macro makes them. SQLite; the engine is the model of EngineSpec, not the real one.

## Findings

Each line is a theorem that shows, on the model, a case in which the property as first
stated is false. The case is one a user can reach.

* `C02_nan_default_refuted`: Outside the well-formed schemas: a column whose default is a NaN differs from itself, so an identical rebuild produces a migration.
* `C05_no_pk_crash_refuted`: A reference to a table without primary key panics.
* `C07_incremental_refuted`: with a custom table name, a table added after an earlier resolution (as the in-memory store does table by table) keeps its reference unresolved, although resolving everything at once resolves it.
* `C08_reading_refuted`: text shorter than three bytes, or with a multi-byte character across byte 3, crashes instead of being reported.
* `C09_missing_predecessor_refuted`: when a predecessor is missing the listing silently starts in the middle.
* `C09_name_reuse_diverges_refuted`: A migration created with the name of an earlier one makes the listing loop for ever.
* `C12_unreadable_info_refuted`: an unreadable description of a migration ends unmigrate early, and it still reports success.
* `C14_reused_directory_refuted`: A migration created in a directory that exists already keeps the tables found there.
* `C15_torn_state_refuted`: the state file is truncated before it is rewritten; a process that stops in between loses the whole list of migrations.
* `C17_or_inside_and_refuted`: `(a OR b) AND c` is written without brackets and means `a OR (b AND c)`.
* `C17_or_inside_not_refuted`: `NOT (a OR b)` means `(NOT a) OR b`.
* `C17_and_inside_not_refuted`: `NOT (a AND b)` means `(NOT a) AND b`.
* `C17_empty_conjunction_refuted`: A conjunction of nothing is written as nothing.
* `C17_reserved_column_refuted`: A column named by a reserved word is not quoted in a comparison.
* `C17_empty_list_refuted`: An empty list is refused by PostgreSQL.
* `C17_two_joins_refuted`: Nothing separates two joins.
* `C18_placeholder_without_value_refuted`: A bare placeholder has no value.
* `C19_more_values_refuted`: The counter is an i8: the 127th value stops a build with overflow checks, the 128th is numbered -128 in one without.
* `C20_group_refuted`: Brackets around a disjunction inside a conjunction do not reach the SQL text.
* `C21_load_first_ignores_limit_refuted`: A limit of zero is not seen by load_first.
* `C21_negative_limit_refuted`: A negative limit is no limit on SQLite.
* `C22_returning_reserved_refuted`: The key column after RETURNING is not quoted.
* `C23_date_refuted`: No date is.
* `C23_json_refuted`: Neither is JSON that is a number, an object or null; null is read as NULL.
* `C23_text_extends_statement_refuted`: A text can end the statement and start another.
* `C23_not_finite_refuted`: A number that is not finite is written as a word.
* `C24_added_reference_lost_refuted`: A column added with a reference has none in the database.
* `C24_added_unique_refused_refuted`: SQLite refuses to add a column that is UNIQUE, rows or not.
* `C24_removed_unique_refused_refuted`: ... and to drop one.
* `C24_referred_table_refused_refuted`: A column of a table that rows of another table refer to cannot be changed: the rebuild drops the table.
* `C24_tables_dropped_in_order_refuted`: Two tables that go together cannot go if a row of the second refers to the first: tables are dropped in alphabetical order, foreign keys or not.
* `C24_table_before_reference_refuted`: Nor can a table together with the column that refers to it: the table is dropped before the column.
* `C24_key_moves_refuted`: The primary key cannot move to a column that comes earlier in the alphabet: for a while the table would have two.
* `C24_temporary_name_taken_refuted`: A table of the name a rebuilt table has for a while is in the way.
* `C24_timestamp_default_refuted`: The rows that are there get a timestamp that butane cannot read: it is written with a T.
* `C24_auto_without_key_refuted`: A column that is numbered automatically and no key: the script is not SQL.
* `C25_auto_ignored_refuted`: A column that becomes automatically numbered is not: no statement is written.
* `C25_auto_retyped_refuted`: SERIAL is not a type a column can be changed to.
* `C25_auto_added_refuted`: An automatically numbered column cannot be added: the statement gives it a second default.
* `C25_key_stays_refuted`: A primary key that is given up stays in the database.
* `C25_key_replaced_refuted`: A primary key column cannot take the place of another: it is added before the other is removed.
* `C25_former_key_nullable_refuted`: The former primary key cannot become nullable while it is the primary key.
* `C25_capital_keyword_refuted`: A table that is called by a keyword with capital letters: the constraint is looked for under another name than the engine gave it.
* `C25_default_not_created_refuted`: A new table's columns have no default, whatever the schema says; a column that is added has one although the schema says nothing.
* `C25_default_invented_refuted`: A column that is added has a default although the schema gives none.
* `C25_referred_table_refuted`: A table and the column that refers to it cannot go together: the table goes first.
* `C25_bytes_default_refuted`: A column of bytes with a default cannot be added.
* `C25_names_collide_refuted`: Two constraints whose usual names are the same: the second is later not found.
* `C25_long_name_refuted`: PostgreSQL cuts names at 63 bytes: the constraint is later not found.
* `C26_semicolon_default_refuted`: A semicolon in a default value ends the statement in the middle.
* `C27_owner_column_refuted`: A filter on a related object's column called `owner` or `has` reads the relation table's column.
* `C28_nested_subquery_refuted`: A subquery inside a subquery is sent as it is.
* `C28_delete_refuted`: Nor does deleting by a filter replace anything.
* `C30_missing_row_refuted`: A save of an object with an automatic key whose row is missing succeeds and stores nothing.
* `C30_lost_reply_refuted`: When the reply to the first save is lost, saving again stores the object a second time.
* `C32_nested_option_refuted`: An option of an option loses a value.
* `C32_range_refuted`: an integer outside the type's range is accepted and altered.
* `C32_f32_refuted`: so is a real number an f32 cannot hold; a large one becomes infinite.
* `C32_map_member_refuted`: an object with a member of another type panics instead of being rejected.
* `C33_nan_refuted`: a NaN written to SQLite or Turso reads back as NULL.
* `C33_pg_nanoseconds_refuted`: PostgreSQL drops nanoseconds.
* `C33_sqlite_other_type_refuted`: within a storage class the value is altered without an error: a 64-bit column read as a 32-bit one.
* `C35_compare_unset_refuted`: comparing a foreign key made from a key with an unset automatic key panics, while one made from an object answers false.
* `C35_unreadable_key_refuted`: a foreign key accepts any SQL value, NULL included; asking for its key then panics.
* `C36_stale_owner_refuted`: An object whose key was changed after loading keeps adding to the relations of the old key.
* `C36_deleted_owner_refuted`: delete leaves the relations of the object: a new object with the same key has them.
* `C36_other_owner_refuted`: Removing an object from one owner's field removes it from every owner's.
* `C36_remove_then_add_refuted`: An object removed and then added again is not related after the save.
* `C36_failed_save_refuted`: A failed save forgets what it could not store: nothing is pending and nothing is stored. Likewise for removals.
* `C37_removed_refuted`: A pending removal is not taken into account.
* `C37_twice_refuted`: An object that is added although it is related already comes twice.
* `C37_stale_refuted`: remove, load, save, load: the second load still returns the removed object.
* `C37_order_refuted`: load_ordered puts pending additions last whatever their key.
* `C38_lost_reply_refuted`: "Visible exactly if commit succeeds" fails when the answer to COMMIT is lost: the caller gets an error and the effects are there.
* `C38_pg_commit_refuted`: It fails on PostgreSQL when a statement was refused before: commit reports success and nothing is visible, although another statement had succeeded.
* `C38_turso_failed_commit_refuted`: Turso: after a refused commit the transaction stays open on the connection, so that the next statement there succeeds and is not visible.
* `C38_turso_sync_drop_refuted`: Turso: dropped outside a tokio runtime, which is where synchronous code is, a transaction is not rolled back: the next statement on the connection is swallowed by it and the next transaction cannot start.
* `C38_turso_drop_panics_refuted`: Turso: dropped on a current-thread runtime, it panics.
* `C38_lost_begin_refuted`: On every backend a lost answer to BEGIN leaves a transaction open that no object stands for.
* `C39_dangling_refuted`: A future dropped while its call is queued leaves pointers to arguments that are gone; the worker follows them.
* `C39_cancelled_call_runs_refuted`: A call whose future was dropped still runs.
* `C39_cancelled_transaction_refuted`: A dropped `transaction()` future leaks an open transaction.
* `C39_panic_refuted`: A panic inside one call ends the worker; every later call fails and dropping the adapter panics.
* `C41_upper_case_refuted`: Schemes are compared without case, but replaced with case: an upper-case [SQLITE:] is left in the text given to SQLite, and a later [sqlite:] in the text is replaced instead.
* `C41_drive_letter_refuted`: A path that starts with a drive letter is taken for a URL: no backend has that name.
* `C41_slashes_in_value_refuted`: A key-value string with [://] in a value goes to SQLite.
* `C41_rejected_url_refuted`: A libsql URL the url crate rejects goes to SQLite, which takes it for the name of a file.
* `C41_add_fragment_refuted`: A parameter added to a URL with a fragment becomes part of the fragment.
* `C41_add_unquoted_refuted`: Values are added as they are: one with an ampersand, a blank or no characters is not the value read back.
* `C42_buffered_current_refuted`: [current] does not return the row most recently returned by [next] ...
* `C43_migrate_unknown_name_refuted`: a name that is not the name of a pending migration (misspelt, unknown or already applied) is not an error: everything pending is applied.
* `C43_rollback_pending_name_refuted`: a name in the chain newer than the last applied migration (and not the very last of the chain) is not reported but panics.
* `C44_collapse_drops_pending_refuted`: Collapsing deletes migrations that are not applied yet.
* `C44_collapse_interrupted_refuted`: A collapse that is interrupted leaves no migrations or a database that does not know the new one.
* `C44_collapse_empty_schema_refuted`: Collapsing to an empty schema deletes all migrations and creates none.
* `C44_regenerate_interrupted_refuted`: An interrupted regeneration leaves scripts that are partly written.
* `C44_add_interrupted_refuted`: An interrupted add-backend leaves a migration with half of its scripts, and cannot be repeated.
* `C44_remove_interrupted_refuted`: An interrupted remove-backend leaves a migration without a script it lists, and cannot be repeated.
* `C44_regenerate_other_layout_refuted`: On a store whose info lists tables as unmodified that are stored in the migration itself, regenerating changes what the chain means.
* `C44_data_only_refuted`: A migration without schema change (for data) is stored without scripts for an added backend.
* `C45_json_mismatch_refuted`: JSON of another shape stored in the column makes reading it panic.
* `C46_shared_table_refuted`: Two models can get the same many-to-many table.
* `C47_qualified_type_refuted`: A field whose derived type is written with its module is recorded under a name nothing is recorded for.
* `C47_raw_type_refuted`: Likewise for a derived type with a raw identifier.
* `C47_shadowed_type_refuted`: A derived type named like a known one is recorded with the known type.
* `C48_to_sql_refuted`: two threads that convert the same foreign key to a SQL value, when it was made from an object, can panic.
* `C49_stale_table_refuted`: A model that is renamed or deleted stays in the current schema: compiling the rest of the project does not remove its table, and the next migration keeps it.
* `C49_cut_types_refuted`: A process that stops while a type is being recorded leaves a file that every later recording of a type refuses to read, as do reading the schema and making a migration, until [clean] is run.
* `C49_describe_orphan_refuted`: A migration whose predecessor has been deleted cannot be described: the command panics.
* `C49_memory_stale_type_refuted`: In memory, unlike on disk, a column that refers to another table keeps the type the table's key had when it was first resolved: when the key's type changes, the column does not follow until its own table is recorded again.
* `C50_first_type_lost_refuted`: FINDING: the first types recorded are not protected. The lock file lies in the directory of the current schema; while that does not exist yet taking the lock fails, and the failure is not looked at (fsmigrations.rs:244 lacks a question mark). Two processes that record the first types at the same time are both told that all went well, and the type of one of them is lost.
* `C50_clean_breaks_lock_refuted`: FINDING: removing the current schema removes the lock file too, while another process has it locked. The next process makes a new file and locks that: two processes hold the exclusive lock at the same time, both record a type after the removal, and one type is lost although both are told that all went well.
* `C50_torn_table_refuted`: FINDING: tables are written without the lock. A reader, who holds it, can find the file of a table just emptied, and fails although nothing has gone wrong.
* `C50_kill_breaks_later_refuted`: FINDING: a process killed while it writes the types leaves an empty file, and whoever records a type or reads the schema afterwards fails: the file is written in place instead of being replaced.
* `C52_real_default_refuted`: a real default need not read back as itself. serde_json is used without its feature float_roundtrip, and computes the number 1e-30 as 1 divided by an f64 near 1e30; a column with the default 1e-30 is recorded, and reads back with the f64 before it, whose own text reads back as 1e-30. The difference between the two is a change of the column, so that every [makemigration] makes a migration for it, for ever.
* `C52_infinite_default_refuted`: a default too large for an f64, as 1e400, is recorded as null, and the table cannot be read any more.
* `C53_hash_refuted`: a column whose default is a text that begins with the character #, as a colour does, ends the literal. The migration is made and [embed] reports success, but what follows the literal in the file it wrote is the rest of the JSON text: the program does not compile any more.
* `C56_key_refuted`: on SQLite a model whose table has a column called rowid, besides a generated key, gets the wrong key or an error back after an insert. The statement that asks for the key of the row with ROWID = last_insert_rowid() compares that column with the row's number. When another row has the number in the column, its key is returned: the object saved then has the key of the other row, and saving it again overwrites that row. When no row has it, the save fails although the row was added. (sqlite.rs:305-309; [_rowid_] and [oid] can be hidden in the same way, so the safe text is SELECT last_insert_rowid() or RETURNING.)
* `C58_missing_row_refuted`: A post that has a number but no row, say because it was deleted meanwhile: the save reports success, stores nothing, and the post is not there.
* `C62_delete_refuted`: Deleting by the same query, which finds the post, is refused on Turso, as by any filter with a subquery (C62_delete_subquery); SQLite deletes the post.

## How the model was compared with files butane has written

The repository contains migrations that butane itself wrote, in its example projects.
`RepoFiles` holds those of `getting_started`, `newtype`, `reserved-words` and `custom_pg` byte
for byte (93 files, the state files and four embedded source files). Evaluated by the model:

* every file reads, and is written again byte for byte (`C52_example_repository`);
* `embed` on each directory gives the committed `butane_migrations.rs` byte for byte
  (`C53_example_repository`);
* creating each of the nine migrations again, from the schema recorded in it and the state
  the directory had before it, gives the same directory entries, the same `info.json` and
  the same SQL scripts for SQLite, PostgreSQL and Turso, up and down, byte for byte
  (`C53_example_replay`).

This checks `Json`, `JsonForm`, `Embed`, the difference of schemas (`Adb`), the layout on disk
(`FsStore`) and the DDL text (`SqliteDdl`, `PgDdl`) on real data. It is a test of the model,
not one of the proofs.
## Testing the theorems

`seeded/LOG.jsonl` has one line per wrong program tried: a definition of the model edited
in a scratch copy the way a bug would change the program, the claim this breaks, and the
theorems that then no longer hold. The scratch build replaces each failing proof by
`Admitted` and goes on, and the theorems reported are the property theorems whose
`Print Assumptions` then shows one of these. Where no theorem failed, the line names the
theorem that was added or tightened.

## Checking

`cd rocq && coq_makefile -f _CoqProject -o Makefile && make -j4` builds everything.
`coqchk -o -silent -Q theories Verif Verif.Props_...` was run on the compiled property
files; it reports no axioms.
