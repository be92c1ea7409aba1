-Q theories Verif
theories/M_Outcome.v
theories/M_Ints.v
theories/M_Ratio.v
theories/M_Float.v
theories/M_Value.v
theories/M_Types.v
theories/M_Qualifier.v
theories/S_Qualifier.v
theories/S_Ratio.v
theories/L_Outcome.v
theories/L_Ints.v
theories/L_Ratio.v
theories/L_Qualifier.v
theories/L_QualifierProofs.v
theories/P_Qualifier.v
theories/L_Round.v
theories/L_RatioQ.v
theories/L_RatioProofs.v
theories/P_Ratio.v
theories/M_RatioAlgo.v
theories/L_RatioAlgo.v
theories/P_RatioAlgo.v
theories/S_Types.v
theories/L_Types.v
theories/L_Types2.v
theories/L_Types3.v
theories/L_TypesProofs.v
theories/P_Types.v
theories/M_Search.v
theories/S_Search.v
theories/L_Search.v
theories/M_Stat.v
theories/M_StatMap.v
theories/S_StatMap.v
theories/L_StatMap.v
theories/L_StatMap2.v
theories/L_StatMap3.v
theories/L_StatMap4.v
theories/L_StatMap5.v
theories/M_Pair.v
theories/S_Demo.v
theories/L_Demo.v
theories/L_StatMapProofs.v
theories/P_StatMap.v
theories/M_Layout.v
theories/S_Layout.v
theories/L_LayoutProofs.v
theories/P_Layout.v
theories/S_Pair.v
theories/L_PairProofs.v
theories/P_Pair.v
theories/M_HashMap.v
theories/L_HashMap.v
theories/M_Defaults.v
theories/S_Defaults.v
theories/L_Defaults.v
theories/S_DemoDefaults.v
theories/L_DefaultsProofs.v
theories/P_Defaults.v
theories/M_Querier.v
theories/S_Querier.v
theories/L_Querier.v
theories/L_Querier2.v
theories/L_Querier3.v
theories/L_Querier4.v
theories/S_DemoQuery.v
theories/L_DemoQuery.v
theories/L_CacheProofs.v
theories/P_Cache.v
theories/L_Query.v
theories/L_DemoQuery2.v
theories/L_QueryProofs.v
theories/P_Query.v
theories/M_Registry.v
theories/S_Registry.v
theories/L_Registry.v
theories/L_RegistryProofs.v
theories/P_Registry.v
theories/M_Derive.v
theories/S_Derive.v
theories/L_Derive.v
theories/L_DeriveProofs.v
theories/P_Derive.v
theories/M_Serde.v
theories/S_Serde.v
theories/L_Serde.v
theories/L_SerdeProofs.v
theories/P_Serde.v
theories/S_Float.v
theories/L_Float.v
theories/L_FloatProofs.v
theories/P_Float.v
theories/M_World.v
theories/S_World.v
theories/L_World.v
theories/L_WorldProofs.v
theories/P_World.v
theories/S_RepoTests.v
theories/M_Unwind.v
theories/S_Unwind.v
theories/L_Unwind.v
theories/P_Unwind.v
theories/M_Poison.v
theories/S_Poison.v
theories/L_Poison.v
theories/P_Poison.v
theories/S_Totals.v
theories/L_Totals.v
theories/L_Totals2.v
theories/P_Totals.v
theories/S_FloatTotals.v
theories/L_FloatTotals.v
theories/L_FloatTotals2.v
theories/L_FloatTotals3.v
theories/P_FloatTotals.v
theories/M_Debug.v
theories/S_Debug.v
theories/L_Debug.v
theories/P_Debug.v
theories/M_Lock.v
theories/S_Lock.v
theories/L_Lock.v
theories/P_Lock.v
theories/M_ValueSerde.v
theories/S_ValueSerde.v
theories/L_ValueSerde.v
theories/L_ValueSerde2.v
theories/L_ValueSerde3.v
theories/L_ValueSerde4.v
theories/P_ValueSerde.v
theories/M_RatioOps.v
theories/S_RatioOps.v
theories/L_RatioOps.v
theories/P_RatioOps.v
theories/M_Borrow.v
theories/S_Borrow.v
theories/L_Borrow.v
theories/P_Borrow.v
theories/S_EndToEnd.v
theories/L_EndToEnd.v
theories/L_EndToEnd2.v
theories/S_DemoGame.v
theories/L_DemoGame.v
theories/P_EndToEnd.v
theories/M_AnyOrd.v
theories/S_AnyOrd.v
theories/L_AnyOrd.v
theories/L_AnyOrd2.v
theories/L_AnyOrd3.v
theories/L_AnyOrdProofs.v
theories/P_AnyOrd.v
theories/M_VTable.v
theories/S_VTable.v
theories/L_VTable.v
theories/L_VTable2.v
theories/P_VTable.v
theories/M_AnyEq.v
theories/S_AnyEq.v
theories/L_AnyEq.v
theories/L_AnyEq2.v
theories/P_AnyEq.v
theories/M_Macro.v
theories/S_Macro.v
theories/L_Macro.v
theories/L_Macro2.v
theories/P_Macro.v
theories/M_Bytes.v
theories/S_Bytes.v
theories/L_Bytes.v
theories/L_Bytes2.v
theories/L_Bytes3.v
theories/P_Bytes.v
theories/S_Once.v
theories/L_Once.v
theories/L_Once2.v
theories/P_Once.v
theories/M_ValueBytes.v
theories/S_ValueBytes.v
theories/L_ValueBytes.v
theories/L_ValueBytes2.v
theories/L_ValueBytes3.v
theories/S_RepoSerde.v
theories/L_ValueBytes4.v
theories/P_ValueBytes.v
theories/S_Neutral.v
theories/L_Neutral.v
theories/L_Neutral2.v
theories/P_Neutral.v
theories/S_Defaults2.v
theories/L_Defaults2.v
theories/L_RatioIff.v
theories/P_RatioIff.v
theories/S_PctTotals.v
theories/L_PctTotals.v
theories/P_Totals2.v
theories/L_EndToEnd3.v
theories/S_DemoGame2.v
theories/P_Defaults2.v
theories/P_EndToEnd2.v
theories/M_Utf8.v
theories/S_Utf8.v
theories/L_Utf8.v
theories/P_Utf8.v
theories/L_Debug2.v
theories/P_Debug2.v
theories/L_NoRepeats.v
theories/P_NoRepeats.v
theories/L_Layout2.v
theories/P_Layout2.v
theories/L_AnyEq3.v
theories/P_AnyEq2.v
theories/S_Bytes4.v
theories/L_Bytes4.v
theories/P_Bytes4.v
theories/L_RatioAlgo2.v
theories/P_RatioAlgo2.v
theories/L_Poison2.v
theories/P_Poison2.v
theories/L_ValueSerde5.v
theories/P_ValueSerde5.v
theories/M_WorldUnwind.v
theories/S_WorldUnwind.v
theories/L_WorldUnwind.v
theories/P_WorldUnwind.v
theories/L_World2.v
theories/P_World2.v
theories/L_AnyOrd4.v
theories/P_AnyOrd2.v
theories/S_WorldUnwind2.v
theories/L_WorldUnwind2.v
theories/P_WorldUnwind2.v
theories/S_Alike.v
theories/L_Alike.v
theories/P_Alike.v
theories/L_Neutral3.v
theories/P_Neutral2.v
theories/S_Zeros.v
theories/L_Zeros.v
theories/P_Zeros.v
theories/S_Monotone.v
theories/S_MonoQuery.v
theories/S_DemoMono.v
theories/L_Monotone.v
theories/L_MonoFloat.v
theories/L_Monotone2.v
theories/L_Monotone3.v
theories/L_Monotone4.v
theories/L_MonoQuery.v
theories/P_Monotone.v
theories/L_Formats.v
theories/P_Formats.v
theories/S_Bits.v
theories/L_Bits.v
theories/P_Bits.v
theories/L_FlagTypes.v
theories/P_FlagTypes.v
theories/S_FracTotals.v
theories/L_FracTotals.v
theories/L_FracTotals2.v
theories/L_FracTotals3.v
theories/L_FracQuery.v
theories/S_DemoFrac.v
theories/P_FracTotals.v
theories/S_MonoFrac.v
theories/L_MonoFrac.v
theories/P_MonoFrac.v
theories/M_Compare.v
theories/S_Compare.v
theories/S_CompareTypes.v
theories/S_DemoCompare.v
theories/L_Compare.v
theories/L_CompareTypes.v
theories/P_Compare.v
theories/S_Reload.v
theories/L_Reload.v
theories/S_DemoReload.v
theories/L_DemoReload.v
theories/P_Reload.v
theories/S_Temporary.v
theories/L_Temporary.v
theories/L_Temporary2.v
theories/P_Temporary.v
theories/S_MonoQuery2.v
theories/L_MonoQuery2.v
theories/S_DemoMono2.v
theories/P_MonoQuery.v
theories/S_Moved.v
theories/L_Moved.v
theories/S_DemoMoved.v
theories/L_DemoMoved.v
theories/P_Moved.v
theories/S_Rules.v
theories/L_Rules.v
theories/S_DemoRules.v
theories/L_DemoRules.v
theories/P_Rules.v
theories/S_RulesMono.v
theories/L_RulesMono.v
theories/S_DemoRulesMono.v
theories/L_DemoRulesMono.v
theories/P_RulesMono.v
theories/S_Reorder.v
theories/L_Reorder.v
theories/S_DemoReorder.v
theories/L_DemoReorder.v
theories/P_Reorder.v
theories/L_Depth.v
theories/P_Depth.v
theories/S_Ties.v
theories/L_Ties.v
theories/S_DemoTies.v
theories/L_DemoTies.v
theories/P_Ties.v
theories/S_Held.v
theories/L_Held.v
theories/S_DemoHeld.v
theories/L_DemoHeld.v
theories/P_Held.v
theories/S_Unaffected.v
theories/L_Unaffected.v
theories/S_DemoUnaffected.v
theories/L_DemoUnaffected.v
theories/P_Unaffected.v
theories/S_CompareAs.v
theories/L_CompareAs.v
theories/P_CompareAs.v
theories/S_Equations.v
theories/L_Equations.v
theories/S_DemoEquations.v
theories/L_DemoEquations.v
theories/P_Equations.v
theories/S_RulesMonoAt.v
theories/L_RulesMonoAt.v
theories/S_DemoRulesMonoAt.v
theories/L_DemoRulesMonoAt.v
theories/P_RulesMonoAt.v
theories/S_ReorderAt.v
theories/L_ReorderAt.v
theories/S_DemoReorderAt.v
theories/L_DemoReorderAt.v
theories/P_ReorderAt.v
theories/S_Held2.v
theories/L_Held2.v
theories/P_Held2.v
