-Q theories Verif
theories/Base.v
theories/M_Language.v
theories/M_Text.v
theories/S_Text.v
theories/P_Base.v
theories/P_Utf8.v
theories/P_Text.v
theories/P_TextExtra.v
theories/T_Text.v
theories/M_Field.v
theories/S_Field.v
theories/P_Field.v
theories/P_FieldExtra.v
theories/T_Field.v
theories/M_LRU.v
theories/S_LRU.v
theories/P_Ring.v
theories/P_LRU.v
theories/P_LRUHist.v
theories/P_LRURace.v
theories/T_LRU.v
theories/M_Cache.v
theories/S_Cache.v
theories/P_Cache.v
theories/P_Cache2.v
theories/T_Cache.v
theories/M_Memory.v
theories/S_Memory.v
theories/P_Memory.v
theories/P_Memory2.v
theories/M_MemHeap.v
theories/P_MemHeap.v
theories/P_MemHeap2.v
theories/T_Memory.v
theories/M_FanIn.v
theories/P_FanIn.v
theories/M_Num.v
theories/M_Search.v
theories/S_View.v
theories/P_Search.v
theories/M_Standard.v
theories/S_Search.v
theories/P_Standard.v
theories/M_NumR.v
theories/P_BM25.v
theories/M_NumF.v
theories/P_Float.v
theories/P_FloatWitness.v
theories/S_BM25.v
theories/P_Search2.v
theories/T_Search.v
theories/M_Server.v
theories/S_Server.v
theories/P_Server.v
theories/T_Server.v
theories/M_File.v
theories/P_File.v
theories/S_File.v
theories/T_File.v
theories/M_Flat.v
theories/M_Serialize.v
theories/P_Flat.v
theories/P_Flat2.v
theories/P_Flat3.v
theories/P_Serialize.v
theories/S_Visits.v
theories/S_Serialize.v
theories/P_FlatProg.v
theories/T_Serialize.v
theories/M_Disk.v
theories/S_Disk.v
theories/P_DiskBase.v
theories/P_DiskInv.v
theories/P_DiskMem.v
theories/P_DiskWriter.v
theories/X_DiskExec.v
theories/T_DiskMem.v
theories/P_DiskMetrics.v
theories/T_DiskMetrics.v
theories/P_DiskNft.v
theories/T_DiskNft.v
theories/P_DiskIndex.v
theories/P_DiskIndex2.v
theories/P_DiskIndex3.v
theories/P_DiskIndex4.v
theories/P_DiskTerm.v
theories/T_DiskIndex.v
theories/P_DiskDocs.v
theories/P_DiskDocs2.v
theories/P_DiskDocs3.v
theories/T_DiskDocs.v
theories/S_DiskFair.v
theories/P_DiskFair.v
theories/P_DiskFair2.v
theories/T_DiskFair.v
theories/M_Concurrent.v
theories/S_Concurrent.v
theories/P_Concurrent.v
theories/P_Concurrent2.v
theories/P_Concurrent3.v
theories/P_Concurrent4.v
theories/P_Concurrent5.v
theories/T_Concurrent.v
theories/M_Path.v
theories/S_Path.v
theories/P_Path.v
theories/T_Path.v
theories/S_DiskDurable.v
theories/P_DiskDurable.v
theories/T_DiskDurable.v
theories/M_DiskSearch.v
theories/P_DiskSearch.v
theories/T_DiskSearch.v
theories/T_DiskRank.v
theories/M_SearchConc.v
theories/P_FanIn2.v
theories/P_SearchConc.v
theories/P_SearchConc2.v
theories/S_SearchConc.v
theories/P_SearchConc3.v
theories/T_SearchConc.v
theories/P_SearchConc4.v
theories/P_SearchConc5.v
theories/P_SearchConc6.v
theories/S_Float.v
theories/P_FloatErr.v
theories/T_FloatErr.v
theories/M_DiskServer.v
theories/T_DiskServer.v
theories/M_DiskBusy.v
theories/P_DiskBusy.v
theories/P_DiskBusy2.v
theories/P_DiskBusy3.v
theories/P_DiskBusy4.v
theories/P_DiskBusy5.v
theories/P_DiskBusy6.v
theories/P_DiskBusy7.v
theories/P_DiskBusy8.v
theories/P_DiskBusy9.v
theories/P_DiskBusy10.v
theories/P_DiskBusy11.v
theories/P_DiskBusy12.v
theories/X_DiskBusy.v
theories/P_DiskBusy13.v
theories/P_DiskBusy14.v
theories/S_DiskBusy.v
theories/T_DiskBusy.v
theories/T_DiskBusy2.v
theories/M_BusyServer.v
theories/S_BusyServer.v
theories/P_BusyServer.v
theories/P_BusyServer2.v
theories/T_BusyServer.v
theories/T_BusyServer2.v
theories/M_DiskMulti.v
theories/S_DiskMulti.v
theories/S_DiskQuery.v
theories/S_DiskQuery2.v
theories/P_DiskMulti.v
theories/P_DiskMulti2.v
theories/P_DiskMulti3.v
theories/P_DiskMulti4.v
theories/P_DiskMulti5.v
theories/P_DiskQuery.v
theories/P_DiskMulti6.v
theories/P_DiskQuery2.v
theories/P_DiskMulti7.v
theories/X_DiskMulti.v
theories/T_DiskMulti.v
theories/T_DiskMulti2.v
theories/T_DiskMulti3.v
theories/T_DiskMulti4.v
theories/M_Import.v
theories/S_Import.v
theories/P_Import.v
theories/P_DiskGroup.v
theories/T_Import.v
theories/S_DiskMulti2.v
theories/P_DiskMulti8.v
theories/T_DiskMulti5.v
theories/P_DiskMulti9.v
theories/P_DiskQuery3.v
theories/P_DiskMulti10.v
theories/T_DiskMulti6.v
theories/T_DiskMulti7.v
theories/X_DiskQuery.v
theories/P_DiskFrozen.v
theories/P_DiskKept.v
theories/P_DiskKept2.v
theories/T_DiskQuery2.v
theories/T_DiskQuery.v
theories/M_MultiServer.v
theories/S_MultiServer.v
theories/P_MultiServer.v
theories/P_MultiServer2.v
theories/P_MultiServer3.v
theories/T_MultiServer.v
theories/X_MultiServer.v
theories/T_MultiServer2.v
theories/S_MultiServer2.v
theories/P_MultiServer4.v
theories/T_MultiServer3.v
theories/X_MultiServer2.v
theories/T_MultiServer4.v
theories/S_MultiServer3.v
theories/P_MultiServer5.v
theories/T_MultiServer5.v
theories/S_DiskMultiFair.v
theories/P_DiskMultiFair.v
theories/T_DiskMulti8.v
theories/S_MultiServer4.v
theories/T_MultiServer6.v
