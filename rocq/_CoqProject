-Q theories Verif
theories/Base.v
theories/SqlVal.v
theories/Adb.v
theories/AdbSpec.v
theories/AdbProofs.v
theories/ResolveSpec.v
theories/ResolveProofs.v
theories/Props_Schema.v
theories/Chain.v
theories/ChainSpec.v
theories/ChainProofs.v
theories/Store.v
theories/StoreSpec.v
theories/StoreProofs.v
theories/FsStore.v
theories/FsSpec.v
theories/FsProofs.v
theories/Props_Migrations.v
theories/Sql.v
theories/Query.v
theories/QuerySpec.v
theories/LexProofs.v
theories/RenderProofs.v
theories/TokProofs.v
theories/ParseProofs.v
theories/SqlStmt.v
theories/Stmt.v
theories/StmtSpec.v
theories/StmtProofs.v
theories/StmtParse.v
theories/StmtSem.v
theories/UpsertProofs.v
theories/StmtMain.v
theories/ParamProofs.v
theories/Props_Query.v
theories/Macro.v
theories/MacroSpec.v
theories/MacroProofs.v
theories/RelProofs.v
theories/Time.v
theories/Literal.v
theories/LiteralSpec.v
theories/LiteralProofs.v
theories/Props_Filter.v
theories/Turso.v
theories/TursoSpec.v
theories/TursoProofs.v
theories/TursoExample.v
theories/Props_Turso.v
theories/Conv.v
theories/ConvSpec.v
theories/ConvProofs.v
theories/Backend.v
theories/BackendSpec.v
theories/BackendProofs.v
theories/Fkey.v
theories/FkeySpec.v
theories/FkeyProofs.v
theories/Props_Values.v
theories/Codegen.v
theories/CodegenSpec.v
theories/CodegenProofs.v
theories/Props_Models.v
theories/Conn.v
theories/Many.v
theories/ObjSpec.v
theories/Obj.v
theories/ConnProofs.v
theories/ManyProofs.v
theories/Props_Relations.v
theories/ObjProofs.v
theories/Props_Objects.v
theories/Rows.v
theories/RowsSpec.v
theories/RowsProofs.v
theories/Props_Rows.v
theories/ConnSpec.v
theories/ConnStrSpec.v
theories/ConnStrProofs.v
theories/Props_ConnStr.v
theories/Txn.v
theories/TxnSpec.v
theories/TxnProofs.v
theories/WithSync.v
theories/WithSyncSpec.v
theories/WithSyncProofs.v
theories/Props_Connections.v
theories/Adapter.v
theories/AdapterSpec.v
theories/AdapterProofs.v
theories/Props_Adapter.v
theories/Cli.v
theories/CliProofs.v
theories/Props_Cli.v
theories/Ddl.v
theories/DdlProofs.v
theories/DdlSpec.v
theories/SqliteDdl.v
theories/SqliteDdlProofs.v
theories/DdlFine.v
theories/Props_TursoScript.v
theories/SqliteSem.v
theories/MigrateSpec.v
theories/MigrateProofs.v
theories/MigrateInv.v
theories/MigrateMain.v
theories/MigrateReady.v
theories/Props_Migrate.v
theories/PgDdl.v
theories/PgSem.v
theories/PgSpec.v
theories/PgDdlProofs.v
theories/PgLocal.v
theories/PgOps.v
theories/PgMain.v
theories/Props_PgMigrate.v
theories/Maint.v
theories/MaintSpec.v
theories/MaintProofs.v
theories/MaintLaid.v
theories/MaintWorld.v
theories/Props_Maint.v
theories/Current.v
theories/CurrentSpec.v
theories/CurrentProofs.v
theories/CurrentMem.v
theories/Props_Current.v
theories/Lock.v
theories/LockSpec.v
theories/LockProofs.v
theories/Props_Lock.v
theories/Deploy.v
theories/DeploySpec.v
theories/DeploySame.v
theories/DeployProofs.v
theories/DeployChain.v
theories/DeployMade.v
theories/Props_Deploy.v
theories/DeployWalk.v
theories/PgReady.v
theories/Json.v
theories/JsonForm.v
theories/JsonSpec.v
theories/JsonProofs.v
theories/JsonRound.v
theories/JsonReal.v
theories/JsonTorn.v
theories/Embed.v
theories/EmbedSpec.v
theories/EmbedProofs.v
theories/RepoFiles.v
theories/RepoModel.v
theories/Replay.v
theories/Props_Json.v
theories/Props_Embed.v
theories/PgDeploy.v
theories/PgDeploySpec.v
theories/PgDeploySame.v
theories/PgDeployProofs.v
theories/Props_PgDeploy.v
theories/ConvReal.v
theories/SqliteData.v
theories/DataCalls.v
theories/StoredSpec.v
theories/StoredRel.v
theories/StoredProofs.v
theories/StoredMain.v
theories/StoredLoad.v
theories/StoredDeploy.v
theories/Props_Stored.v
theories/SqliteKey.v
theories/KeyCall.v
theories/KeyProofs.v
theories/Props_Key.v
theories/CarriedSpec.v
theories/CarriedProofs.v
theories/Props_Carried.v
theories/Saved.v
theories/SavedSpec.v
theories/SavedProofs.v
theories/Props_Saved.v
theories/HistorySpec.v
theories/HistoryProofs.v
theories/Props_History.v
theories/Loaded.v
theories/LoadedSpec.v
theories/LoadedProofs.v
theories/Props_Loaded.v
theories/Related.v
theories/RelatedSpec.v
theories/Props_Related.v
theories/RelatedProofs.v
theories/TursoSaved.v
theories/TursoSavedSpec.v
theories/TursoSavedProofs.v
theories/Props_TursoSaved.v
theories/EvolvedSpec.v
theories/EvolvedProofs.v
theories/Props_Evolved.v
theories/CalendarSpec.v
theories/AcceptedSpec.v
theories/AcceptedProofs.v
theories/Props_Accepted.v
