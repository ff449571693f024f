-Q theories Verif
theories/Base.v
theories/M_Auto.v
theories/M_Auto1.v
theories/M_Auto2.v
theories/M_Bench.v
theories/M_BenchDict.v
theories/M_Bits.v
theories/M_Blocked.v
theories/M_Bp.v
theories/M_Bucket.v
theories/M_Bytes.v
theories/M_Cart.v
theories/M_CeRange.v
theories/M_Codes.v
theories/M_CompactEf.v
theories/M_Compare.v
theories/M_Conc.v
theories/M_Containers.v
theories/M_Cvec.v
theories/M_Darray.v
theories/M_EfSeq.v
theories/M_Fc.v
theories/M_Filter.v
theories/M_Find.v
theories/M_GnuHeap.v
theories/M_Heap.v
theories/M_Input.v
theories/M_IntFc.v
theories/M_Intersect.v
theories/M_InvIndex.v
theories/M_Iter.v
theories/M_Narrow.v
theories/M_Page.v
theories/M_Paren.v
theories/M_Parse.v
theories/M_Prep.v
theories/M_PrepTest.v
theories/M_Real.v
theories/M_Request.v
theories/M_Rs.v
theories/M_Save.v
theories/M_Stored.v
theories/M_TestBlocked.v
theories/M_TestIndex.v
theories/M_TestList.v
theories/M_TestPrefix.v
theories/M_Tests.v
theories/M_Text.v
theories/M_Tools.v
theories/M_TopK.v
theories/M_Trie.v
theories/M_Uncomp.v
theories/M_Web.v
theories/M_Wide.v
theories/M_Word.v
theories/P_Again.v
theories/P_Auto1.v
theories/P_Auto2.v
theories/P_Auto23.v
theories/P_Auto3.v
theories/P_Auto4.v
theories/P_Bench.v
theories/P_BenchDict.v
theories/P_Bits.v
theories/P_BitsAppend.v
theories/P_BitsHist.v
theories/P_BitsIter.v
theories/P_BitsRead.v
theories/P_Blank.v
theories/P_BlockConj.v
theories/P_BlockFinal.v
theories/P_BlockIndex.v
theories/P_BlockView.v
theories/P_Blocked.v
theories/P_Bp.v
theories/P_BpBuild.v
theories/P_BpTree.v
theories/P_BpWord.v
theories/P_Build.v
theories/P_Bytes.v
theories/P_Cart.v
theories/P_CeRange.v
theories/P_Codes.v
theories/P_Collection.v
theories/P_CompactEf.v
theories/P_CompactIt.v
theories/P_Compare.v
theories/P_Conc.v
theories/P_Containers.v
theories/P_Core2.v
theories/P_Crash.v
theories/P_Cut.v
theories/P_Cvec.v
theories/P_Darray.v
theories/P_Decode.v
theories/P_EfSeq.v
theories/P_Ends.v
theories/P_Exact.v
theories/P_Extract.v
theories/P_Fc.v
theories/P_FcGen.v
theories/P_Files.v
theories/P_Filter.v
theories/P_Find.v
theories/P_Fit.v
theories/P_Fit2.v
theories/P_Fit3.v
theories/P_GnuHeap.v
theories/P_Grow.v
theories/P_Heap.v
theories/P_HeldOut.v
theories/P_Input.v
theories/P_IntFc.v
theories/P_Intersect.v
theories/P_InvIndex.v
theories/P_Kept.v
theories/P_Levels.v
theories/P_Limit.v
theories/P_ListContainers.v
theories/P_ListIter.v
theories/P_Lists.v
theories/P_Local.v
theories/P_Long.v
theories/P_LongTopK.v
theories/P_Marks.v
theories/P_Meta.v
theories/P_Narrow.v
theories/P_Order.v
theories/P_Page.v
theories/P_Paren.v
theories/P_ParenSpec.v
theories/P_ParenTree.v
theories/P_ParenWord.v
theories/P_Parse.v
theories/P_ParseFc.v
theories/P_Percent.v
theories/P_Platform.v
theories/P_Pool.v
theories/P_Prep.v
theories/P_PrepDict.v
theories/P_PrepEnd.v
theories/P_PrepRows.v
theories/P_PrepTest.v
theories/P_PrepText.v
theories/P_Query.v
theories/P_Rank.v
theories/P_Real.v
theories/P_RealTopK.v
theories/P_Rearr.v
theories/P_Records.v
theories/P_Relabel.v
theories/P_Request.v
theories/P_Room.v
theories/P_Rs.v
theories/P_Save.v
theories/P_Scan.v
theories/P_Session.v
theories/P_Shown.v
theories/P_Site.v
theories/P_SiteNarrow.v
theories/P_SiteTyped.v
theories/P_Spaces.v
theories/P_Starts.v
theories/P_Stats.v
theories/P_Stored.v
theories/P_TestBlocked.v
theories/P_TestIndex.v
theories/P_TestList.v
theories/P_TestPrefix.v
theories/P_Tests.v
theories/P_Threads.v
theories/P_Tidy.v
theories/P_Tools.v
theories/P_TopK.v
theories/P_TopKDistinct.v
theories/P_Trie.v
theories/P_TrieBuild.v
theories/P_TrieFinal.v
theories/P_TrieSearch.v
theories/P_Typed.v
theories/P_Uncomp.v
theories/P_UncompLoop.v
theories/P_Unique.v
theories/P_Unknown.v
theories/P_Web.v
theories/P_Wide.v
theories/P_Word.v
theories/S_Bench.v
theories/S_BenchDict.v
theories/S_Bits.v
theories/S_Blank.v
theories/S_Blocked.v
theories/S_Build.v
theories/S_Codes.v
theories/S_Collection.v
theories/S_Completions.v
theories/S_Conc.v
theories/S_Containers.v
theories/S_Crash.v
theories/S_Cut.v
theories/S_Ends.v
theories/S_Files.v
theories/S_Filter.v
theories/S_Found.v
theories/S_Grow.v
theories/S_Heap.v
theories/S_HeldOut.v
theories/S_Index.v
theories/S_Index2.v
theories/S_Intersect.v
theories/S_Iter.v
theories/S_Json.v
theories/S_Lists.v
theories/S_Local.v
theories/S_Meta.v
theories/S_Narrow.v
theories/S_Order.v
theories/S_Page.v
theories/S_Paren.v
theories/S_Parse.v
theories/S_Percent.v
theories/S_Platform.v
theories/S_Prep.v
theories/S_PrepTest.v
theories/S_Python.v
theories/S_Rearr.v
theories/S_Relabel.v
theories/S_Request.v
theories/S_Room.v
theories/S_Save.v
theories/S_Search.v
theories/S_Session.v
theories/S_Shown.v
theories/S_Site.v
theories/S_SiteNarrow.v
theories/S_SiteTyped.v
theories/S_Spaces.v
theories/S_Starts.v
theories/S_Stats.v
theories/S_TestBlocked.v
theories/S_TestPrefix.v
theories/S_Text.v
theories/S_Tidy.v
theories/S_Tools.v
theories/S_TopK.v
theories/S_Trie.v
theories/S_Typed.v
theories/S_Uncomp.v
theories/S_Vocab.v
theories/S_Wide.v
theories/T_Again.v
theories/T_Auto1.v
theories/T_Auto2.v
theories/T_Auto4.v
theories/T_Bench.v
theories/T_BenchDict.v
theories/T_Bits.v
theories/T_Bits2.v
theories/T_Blank.v
theories/T_Blocked.v
theories/T_Build.v
theories/T_Bytes.v
theories/T_Cart.v
theories/T_Codes.v
theories/T_Compare.v
theories/T_Conc.v
theories/T_Crash.v
theories/T_Cut.v
theories/T_Cvec.v
theories/T_Darray.v
theories/T_EfSeq.v
theories/T_End.v
theories/T_Ends.v
theories/T_Exact.v
theories/T_Fc.v
theories/T_Filter.v
theories/T_Find.v
theories/T_Forward.v
theories/T_GnuHeap.v
theories/T_Grow.v
theories/T_Heap.v
theories/T_HeldOut.v
theories/T_Input.v
theories/T_IntFc.v
theories/T_Intersect.v
theories/T_InvIndex.v
theories/T_Kept.v
theories/T_Loaded.v
theories/T_Local.v
theories/T_Long.v
theories/T_LongTerm.v
theories/T_Meta.v
theories/T_Narrow.v
theories/T_Page.v
theories/T_Paren.v
theories/T_Parse.v
theories/T_Percent.v
theories/T_Platform.v
theories/T_Prep.v
theories/T_PrepTest.v
theories/T_Real.v
theories/T_Rearr.v
theories/T_Relabel.v
theories/T_Request.v
theories/T_Room.v
theories/T_Rs.v
theories/T_Same.v
theories/T_Save.v
theories/T_Session.v
theories/T_Shown.v
theories/T_Site.v
theories/T_SiteNarrow.v
theories/T_SiteTyped.v
theories/T_Spaces.v
theories/T_Starts.v
theories/T_Stop.v
theories/T_TestBlocked.v
theories/T_TestIndex.v
theories/T_TestList.v
theories/T_TestPrefix.v
theories/T_Tests.v
theories/T_Threads.v
theories/T_Tidy.v
theories/T_Tools.v
theories/T_TopK.v
theories/T_Trie.v
theories/T_Typed.v
theories/T_Uncomp.v
theories/T_Unique.v
theories/T_Unknown.v
theories/T_Web.v
theories/T_Wide.v
theories/T_Word.v
