-Q theories Verif
theories/Base.v
theories/Str.v
theories/L_Base.v
theories/L_Str.v
theories/M_Time.v
theories/S_Time.v
theories/L_Time.v
theories/M_Instant.v
theories/M_Timeline.v
theories/S_Timeline.v
theories/L_Instant.v
theories/L_Timeline.v
theories/P_Timeline.v
theories/M_BTree.v
theories/L_BTree.v
theories/M_FileGroup.v
theories/S_FileGroup.v
theories/L_FileGroup.v
theories/P_FileGroup.v
theories/M_Builder.v
theories/S_Builder.v
theories/L_Builder.v
theories/P_Builder.v
theories/M_Listing.v
theories/S_Listing.v
theories/L_Listing.v
theories/L_Tree.v
theories/L_Parallel.v
theories/L_View.v
theories/P_Listing.v
theories/M_Utf8.v
theories/M_Expr.v
theories/S_Expr.v
theories/L_Expr.v
theories/P_Expr.v
theories/M_Log.v
theories/S_Log.v
theories/L_Log.v
theories/L_Cut.v
theories/P_Log.v
theories/M_Config.v
theories/S_Config.v
theories/L_Config.v
theories/P_Config.v
theories/M_Reader.v
theories/S_Reader.v
theories/L_Reader.v
theories/P_Reader.v
theories/M_Storage.v
theories/S_Storage.v
theories/L_Storage.v
theories/P_Storage.v
theories/P_FileRoot.v
theories/M_Table.v
theories/S_Table.v
theories/L_Table.v
theories/L_Incremental.v
theories/L_Between.v
theories/E_Table.v
theories/P_Table.v
theories/S_History.v
theories/S_Readers.v
theories/L_Readers.v
theories/P_Readers.v
theories/S_Workers.v
theories/L_Workers.v
theories/P_Workers.v
theories/S_Incremental.v
theories/L_History.v
theories/L_Records.v
theories/E_History.v
theories/P_History.v
theories/L_Changes.v
theories/E_Changes.v
theories/P_Between.v
theories/P_Changes.v
theories/M_Concurrent.v
theories/S_Concurrent.v
theories/L_Concurrent.v
theories/L_Answers.v
theories/E_Concurrent.v
theories/P_Concurrent.v
theories/M_Avro.v
theories/S_Avro.v
theories/L_Avro.v
theories/L_Columns.v
theories/L_Batch.v
theories/L_ArrowSchema.v
theories/E_Avro.v
theories/P_Avro.v
theories/M_Python.v
theories/S_Python.v
theories/L_Python.v
theories/L_Bare.v
theories/P_Python.v
theories/P_Layout.v
theories/M_Scan.v
theories/S_Scan.v
theories/L_Scan.v
theories/E_Scan.v
theories/P_Scan.v
theories/S_Session.v
theories/M_Session.v
theories/L_Session.v
theories/E_Session.v
theories/P_Session.v
theories/M_Metadata.v
theories/S_Metadata.v
theories/L_Metadata.v
theories/P_Metadata.v
theories/M_Objects.v
theories/S_Objects.v
theories/L_Objects.v
theories/M_Open.v
theories/S_Open.v
theories/L_Open.v
theories/E_Open.v
theories/P_Open.v
theories/M_During.v
theories/S_During.v
theories/L_During.v
theories/E_During.v
theories/P_During.v
theories/M_Calls.v
theories/S_Calls.v
theories/L_Calls.v
theories/E_Calls.v
theories/P_Calls.v
theories/M_Values.v
theories/S_Values.v
theories/L_Values.v
theories/E_Values.v
theories/P_Values.v
theories/M_Datum.v
theories/S_Datum.v
theories/L_Datum.v
theories/L_Typed.v
theories/L_Stored.v
theories/E_Datum.v
theories/P_Datum.v
theories/S_Meanwhile.v
theories/L_Meanwhile.v
theories/E_Meanwhile.v
theories/P_Meanwhile.v
theories/S_Settings.v
theories/L_Settings.v
theories/E_Settings.v
theories/P_Settings.v
theories/M_Json.v
theories/S_Json.v
theories/L_Json.v
theories/S_Torn.v
theories/L_Torn.v
theories/E_Json.v
theories/P_Json.v
theories/S_Whole.v
theories/L_Whole.v
theories/L_Succeed.v
theories/S_Changes.v
theories/L_WholeChanges.v
theories/E_WholeChanges.v
theories/P_WholeChanges.v
theories/S_Follow.v
theories/L_Follow.v
theories/P_Follow.v
theories/S_Calendar.v
theories/L_Calendar.v
theories/P_Calendar.v
theories/E_Whole.v
theories/P_Whole.v
theories/P_Succeed.v
theories/S_Filtered.v
theories/L_Filtered.v
theories/E_Filtered.v
theories/P_Filtered.v
theories/S_Bases.v
theories/L_Bases.v
theories/L_BasesSucceed.v
theories/P_Bases.v
theories/P_BasesChanges.v
theories/S_Crash.v
theories/L_Crash.v
theories/E_Crash.v
theories/P_Crash.v
theories/S_Evolved.v
theories/L_Evolved.v
theories/P_Evolved.v
theories/S_Robust.v
theories/L_Robust.v
theories/L_RobustAvro.v
theories/P_Robust.v
theories/P_Stable.v
theories/S_Deletes.v
theories/L_Deletes.v
theories/P_Deletes.v
theories/S_Replace.v
theories/L_Replace.v
theories/E_Cluster.v
theories/P_Replace.v
theories/S_Writer.v
theories/L_Writer.v
theories/E_Writer.v
theories/P_Writer.v
theories/S_Utf8.v
theories/S_Text.v
theories/L_Utf8.v
theories/L_Text.v
theories/P_Text.v
theories/S_Clean.v
theories/L_Clean.v
theories/E_Clean.v
theories/P_Clean.v
theories/S_Recorded.v
theories/L_Recorded.v
theories/E_Recorded.v
theories/E_Elsewhere.v
theories/P_Recorded.v
theories/M_Gil.v
theories/S_Gil.v
theories/L_Gil.v
theories/E_Gil.v
theories/P_Gil.v
theories/S_Erased.v
theories/L_Erased.v
theories/E_Erased.v
theories/P_Erased.v
theories/S_Gaps.v
theories/L_Gaps.v
theories/E_Gaps.v
theories/P_Gaps.v
theories/S_Life.v
theories/L_Life.v
theories/E_Life.v
theories/P_Life.v
theories/S_Swept.v
theories/L_Swept.v
theories/L_Sweeping.v
theories/E_Swept.v
theories/P_Swept.v
theories/S_AvroCells.v
theories/L_AvroCells.v
theories/S_SweptChanges.v
theories/L_SweptChanges.v
theories/P_SweptChanges.v
theories/S_Sql.v
theories/L_Sql.v
theories/P_Sql.v
theories/M_Io.v
theories/S_Io.v
theories/L_Io.v
theories/P_Io.v
theories/M_Names.v
theories/S_Names.v
theories/P_Names.v
theories/S_Removal.v
theories/L_Removal.v
theories/P_Removal.v
theories/M_Docs.v
theories/S_Docs.v
theories/L_Docs.v
theories/P_Docs.v
