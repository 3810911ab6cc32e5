-Q theories Verif

theories/M_Base.v
theories/M_Value.v
theories/M_Schema.v
theories/M_Partition.v
theories/M_Store.v
theories/M_Meta.v
theories/M_Upsert.v
theories/M_Tx.v
theories/M_EdnValue.v
theories/M_Entity.v
theories/M_Boot.v
theories/M_Conn.v
theories/M_Sets.v
theories/Spec_Value.v
theories/Spec_Partition.v
theories/Spec_Sets.v
theories/P_Value.v
theories/P_Partition.v
theories/P_Sets.v
theories/Properties_Values.v
theories/P_Base.v
theories/P_Store.v
theories/P_Fill.v
theories/Spec_Tx.v
theories/P_Step.v
theories/P_Meta.v
theories/Spec_Conn.v
theories/P_Inv.v
theories/P_Conn.v
theories/Spec_Upsert.v
theories/P_Upsert.v
theories/P_Resolve.v
theories/Spec_Entity.v
theories/P_Entity.v
theories/P_Nested.v
theories/Spec_Transact.v
theories/P_Tx.v
theories/P_TxProps.v
theories/P_Panic.v
theories/P_History.v
theories/P_TxThms.v
theories/Spec_Perm.v
theories/P_Perm.v
theories/Spec_Schema.v
theories/P_Schema.v
theories/P_SchemaStep.v
theories/P_Reopen.v
theories/P_SchemaThms.v
theories/M_Observer.v
theories/Spec_Observer.v
theories/P_Events.v
theories/P_Observer.v
theories/M_Cache.v
theories/Spec_Cache.v
theories/P_Cache.v
theories/P_CacheInv.v
theories/M_Pull.v
theories/Spec_Pull.v
theories/P_Pull.v
theories/M_Timelines.v
theories/Spec_Timelines.v
theories/P_Timelines.v
theories/Cases_Timelines.v
theories/Properties_Timelines.v
theories/M_Shared.v
theories/Spec_Shared.v
theories/P_Shared.v
theories/Cases.v
theories/Cases_Cache.v
theories/Cases_Schema.v
theories/Cases_Pull.v
theories/Properties_Tx.v
theories/Properties_Tx2.v
theories/Properties_Schema.v
theories/Properties_Observer.v
theories/Properties_Cache.v
theories/Properties_Pull.v
theories/M_Query.v
theories/Spec_Query.v
theories/P_QuerySql.v
theories/P_QuerySat.v
theories/P_QueryPat.v
theories/P_QueryInv.v
theories/P_QueryApply.v
theories/P_QueryClauses.v
theories/P_QueryFinish.v
theories/P_QueryStep.v
theories/P_QueryPred.v
theories/P_QueryOr.v
theories/Spec_Union.v
theories/P_QueryMain.v
theories/P_QueryProj.v
theories/P_QueryUnion.v
theories/P_QueryBranch.v
theories/P_QueryResult.v
theories/P_QueryConn.v
theories/P_QueryLaws.v
theories/Cases_Query.v
theories/Properties_Query.v
theories/Properties_Union.v
theories/Properties_Compare.v
theories/M_Sql.v
theories/Spec_Sql.v
theories/P_Sql.v
theories/Properties_Sql.v
theories/M_Edn.v
theories/Spec_Edn.v
theories/P_EdnNum.v
theories/P_Edn.v
theories/P_EdnOrd.v
theories/P_EdnRound.v
theories/P_EdnParsed.v
theories/P_EdnTotal.v
theories/P_EdnExact.v
theories/P_EdnPanic.v
theories/Cases_Edn.v
theories/Properties_Edn.v
theories/M_Pretty.v
theories/Spec_Pretty.v
theories/P_Pretty.v
theories/Properties_Pretty.v
theories/M_TxText.v
theories/Spec_TxText.v
theories/P_TxText.v
theories/P_TxTotal.v
theories/P_TxKept.v
theories/Properties_TxText.v
theories/M_QueryText.v
theories/Spec_QueryText.v
theories/P_QueryText.v
theories/P_QueryTotal.v
theories/Spec_QueryKept.v
theories/P_QueryKept.v
theories/Spec_QueryParts.v
theories/P_QueryParts.v
theories/Properties_QueryText.v
theories/M_Sync.v
theories/Spec_Sync.v
theories/P_Sort.v
theories/P_SyncStep.v
theories/P_SyncReplay.v
theories/P_SyncChain.v
theories/P_SyncBoot.v
theories/P_SyncUp.v
theories/P_SyncSend.v
theories/P_SyncHist.v
theories/P_SyncFleet.v
theories/P_SyncAll.v
theories/P_SyncTop.v
theories/Cases_Sync.v
theories/P_SyncTable.v
theories/Properties_Sync.v
theories/M_Vocab.v
theories/Spec_Vocab.v
theories/P_Vocab.v
theories/P_Ensure.v
theories/P_EnsureThms.v
theories/P_EnsureAll.v
theories/Cases_Vocab.v
theories/Properties_Vocab.v
theories/M_Builder.v
theories/Spec_Builder.v
theories/P_Builder.v
theories/Properties_Builder.v
theories/M_Output.v
theories/Spec_Output.v
theories/P_Output.v
theories/Properties_Output.v
theories/M_Aggregate.v
theories/Spec_Aggregate.v
theories/P_Aggregate.v
theories/Properties_Aggregate.v
