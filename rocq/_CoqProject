-Q theories Verif
theories/Base.v
theories/Model_Types.v
theories/Model_Subscription.v
theories/Spec_Subscription.v
theories/Proof_Subscription.v
theories/Proof_Subscription2.v
theories/Spec_Overlap.v
theories/Proof_Overlap.v
theories/Proof_Overlap2.v
theories/Spec_Creation.v
theories/Proof_Creation.v
theories/Prop_Subscription.v
theories/Model_Collection.v
theories/Spec_Collection.v
theories/Proof_Collection.v
theories/Prop_Collection.v
theories/Model_Order.v
theories/Spec_Order.v
theories/Proof_Order.v
theories/Prop_Order.v
theories/Model_Codec.v
theories/Spec_Codec.v
theories/Proof_Codec.v
theories/Prop_Codec.v
theories/Model_Sbs.v
theories/Proof_Sbs.v
theories/Prop_Sbs.v
theories/Model_Time.v
theories/Proof_Time.v
theories/Prop_Time.v
theories/Kv.v
theories/Keys.v
theories/Model_Lmdb.v
theories/Model_LmdbSys.v
theories/Spec_Lmdb.v
theories/Proof_Lmdb1.v
theories/Proof_Lmdb2.v
theories/Proof_Lmdb3.v
theories/Proof_Lmdb4.v
theories/Proof_Lmdb5.v
theories/Proof_Lmdb6.v
theories/Proof_Lmdb7.v
theories/Proof_Lmdb8.v
theories/Spec_LmdbContent.v
theories/Proof_Lmdb9.v
theories/Proof_Subscription3.v
theories/Proof_Lmdb10.v
theories/Ex_Lmdb.v
theories/Prop_LmdbContent.v
theories/Spec_LmdbQuery.v
theories/Proof_Lmdb11.v
theories/Proof_Lmdb12.v
theories/Proof_Lmdb13.v
theories/Proof_Lmdb14.v
theories/Proof_Lmdb15.v
theories/Prop_LmdbServer.v
theories/Spec_LmdbCleanup.v
theories/Model_LmdbCleanup.v
theories/Proof_Lmdb16.v
theories/Proof_Lmdb17.v
theories/Proof_LmdbCleanup.v
theories/Prop_LmdbCleanup.v
theories/Spec_LmdbTs.v
theories/Proof_Lmdb18.v
theories/Proof_Lmdb19.v
theories/Proof_Lmdb20.v
theories/Proof_Lmdb21.v
theories/Proof_Lmdb22.v
theories/Ex_LmdbTs.v
theories/Prop_LmdbTs.v
theories/Spec_LmdbPages.v
theories/Proof_Lmdb23.v
theories/Ex_LmdbPages.v
theories/Prop_LmdbPages.v
theories/Model_Conditions.v
theories/Spec_Conditions.v
theories/Proof_Conditions.v
theories/Proof_Conditions2.v
theories/Prop_Conditions.v
theories/Model_LmdbFlush.v
theories/Spec_LmdbFlush.v
theories/Proof_LmdbFlush.v
theories/Proof_LmdbFlush2.v
theories/Proof_LmdbFlush3.v
theories/Proof_LmdbFlush4.v
theories/Ex_LmdbFlush.v
theories/Prop_LmdbFlush.v
theories/Model_Engine.v
theories/Spec_Engine.v
theories/Proof_Engine.v
theories/Proof_Engine2.v
theories/Proof_Engine3.v
theories/Proof_Engine4.v
theories/Proof_Engine5.v
theories/Ex_Engine.v
theories/Prop_Engine.v
theories/Model_Eventer.v
theories/Spec_Eventer.v
theories/Proof_Eventer.v
theories/Proof_Eventer2.v
theories/Proof_Eventer3.v
theories/Proof_Eventer4.v
theories/Proof_Eventer5.v
theories/Proof_Eventer6.v
theories/Proof_Eventer7.v
theories/Proof_Eventer8.v
theories/Ex_Eventer.v
theories/Prop_Eventer.v
theories/Model_Client.v
theories/Spec_Client.v
theories/Proof_Client.v
theories/Proof_Client2.v
theories/Proof_Client3.v
theories/Proof_Client4.v
theories/Proof_Client5.v
theories/Ex_Client.v
theories/Prop_Client.v
theories/Model_Sync.v
theories/Spec_Sync.v
theories/Proof_Sync.v
theories/Proof_Sync2.v
theories/Proof_Sync3.v
theories/Proof_Sync4.v
theories/Proof_Sync5.v
theories/Proof_Sync6.v
theories/Proof_Sync7.v
theories/Ex_Sync.v
theories/Prop_Sync.v
theories/Model_Monitor.v
theories/Spec_Monitor.v
theories/Proof_Monitor.v
theories/Model_Remote.v
theories/Spec_Remote.v
theories/Proof_Remote.v
theories/Proof_Remote2.v
theories/Ex_Remote.v
theories/Prop_Remote.v
theories/Model_Runner.v
theories/Spec_Runner.v
theories/Proof_Runner.v
theories/Proof_Runner2.v
theories/Ex_Runner.v
theories/Prop_Runner.v
theories/Model_Component.v
theories/Spec_Component.v
theories/Proof_Component.v
theories/Proof_Component2.v
theories/Ex_Component.v
theories/Prop_Component.v
theories/Model_Memory.v
theories/Spec_Memory.v
theories/Proof_Memory.v
theories/Prop_Memory.v
theories/Model_Copy.v
theories/Spec_Copy.v
theories/Proof_Copy.v
theories/Prop_Copy.v
theories/Model_Convert.v
theories/Spec_Convert.v
theories/Proof_Convert.v
theories/Proof_Convert2.v
theories/Proof_Convert3.v
theories/Proof_Convert4.v
theories/Ex_Convert.v
theories/Prop_Convert.v
theories/Model_DbTool.v
theories/Spec_DbTool.v
theories/Proof_DbTool.v
theories/Prop_DbTool.v
theories/Model_Main.v
theories/Spec_Main.v
theories/Proof_Main.v
theories/Proof_Main2.v
theories/Proof_Main3.v
theories/Prop_Main.v
theories/Model_Adminer.v
theories/Spec_Adminer.v
theories/Proof_Adminer.v
theories/Proof_Adminer2.v
theories/Prop_Adminer.v
theories/Model_Manager.v
theories/Spec_Manager.v
theories/Proof_Manager.v
theories/Prop_Manager.v
theories/Model_CHeap.v
theories/Spec_CHeap.v
theories/Proof_CHeap.v
theories/Proof_CHeap2.v
theories/Proof_CHeap3.v
theories/Proof_CHeap4.v
theories/Proof_CHeap5.v
theories/Proof_CHeap6.v
theories/Prop_CHeap.v
theories/Model_SHeap.v
theories/Spec_SHeap.v
theories/Proof_SHeap.v
theories/Proof_SHeap2.v
theories/Proof_SHeap3.v
theories/Proof_SHeap4.v
theories/Proof_SHeap5.v
theories/Proof_SHeap6.v
theories/Proof_SHeap7.v
theories/Proof_SHeap8.v
theories/Prop_SHeap.v
theories/Spec_Delivery.v
theories/Proof_Delivery.v
theories/Spec_Delivery2.v
theories/Proof_Delivery2.v
theories/Spec_Delivery3.v
theories/Proof_Delivery3.v
theories/Ex_Delivery.v
theories/Prop_Delivery.v
theories/Model_ConvertBytes.v
theories/Spec_ConvertBytes.v
theories/Proof_ConvertBytes.v
theories/Proof_ConvertBytes2.v
theories/Proof_ConvertBytes3.v
theories/Proof_ConvertBytes4.v
theories/Ex_ConvertBytes.v
theories/Prop_ConvertBytes.v
theories/Model_Schema.v
theories/Model_Conf.v
theories/Spec_Conf.v
theories/Proof_Conf.v
theories/Proof_Conf2.v
theories/Proof_Conf3.v
theories/Proof_Conf4.v
theories/Proof_Conf5.v
theories/Proof_Conf6.v
theories/Ex_Conf.v
theories/Prop_Conf.v
theories/Model_Published.v
theories/Spec_Published.v
theories/Proof_Published.v
theories/Prop_Published.v
theories/Model_Service.v
theories/Spec_Service.v
theories/Proof_Service.v
theories/Proof_Service2.v
theories/Proof_Service3.v
theories/Proof_Service4.v
theories/Proof_Service5.v
theories/Proof_Service6.v
theories/Ex_Service.v
theories/Prop_Service.v
theories/Model_Replica.v
theories/Spec_Replica.v
theories/Proof_Replica.v
theories/Proof_Replica2.v
theories/Proof_Replica3.v
theories/Proof_Replica4.v
theories/Proof_Replica5.v
theories/Ex_Replica.v
theories/Prop_Replica.v
theories/Model_Pair.v
theories/Spec_Pair.v
theories/Proof_Pair.v
theories/Proof_Pair2.v
theories/Proof_Pair3.v
theories/Proof_Pair4.v
theories/Proof_Pair5.v
theories/Proof_Pair6.v
theories/Proof_Pair7.v
theories/Proof_Pair8.v
theories/Ex_Pair.v
theories/Prop_Pair.v
theories/Spec_Reach.v
theories/Proof_Reach.v
theories/Ex_Reach.v
theories/Prop_Reach.v
theories/Spec_Converge.v
theories/Proof_Converge.v
theories/Proof_Converge2.v
theories/Proof_Converge3.v
theories/Proof_Converge4.v
theories/Proof_Converge5.v
theories/Proof_Converge6.v
theories/Ex_Converge.v
theories/Prop_Converge.v
theories/Spec_Eventual.v
theories/Proof_Eventual.v
theories/Ex_Eventual.v
theories/Prop_Eventual.v
theories/Model_Dummy.v
theories/Spec_Dummy.v
theories/Proof_Dummy.v
theories/Ex_Dummy.v
theories/Prop_Dummy.v
theories/Model_Exit.v
theories/Spec_Exit.v
theories/Proof_Exit.v
theories/Proof_Exit2.v
theories/Ex_Exit.v
theories/Prop_Exit.v
theories/Model_ConvertCut.v
theories/Spec_ConvertCut.v
theories/Proof_ConvertCut.v
theories/Proof_ConvertCut2.v
theories/Prop_ConvertCut.v
theories/Spec_Resume.v
theories/Proof_Resume.v
theories/Proof_Resume2.v
theories/Proof_Resume3.v
theories/Proof_Resume4.v
theories/Ex_Resume.v
theories/Prop_Resume.v
theories/Spec_ResumeQuery.v
theories/Proof_ResumeQuery.v
theories/Proof_ResumeQuery2.v
theories/Ex_ResumeQuery.v
theories/Prop_ResumeQuery.v
theories/Spec_Lineage.v
theories/Proof_Lineage.v
theories/Ex_Lineage.v
theories/Prop_Lineage.v
theories/Model_CopyBytes.v
theories/Spec_CopyBytes.v
theories/Proof_CopyBytes.v
theories/Proof_CopyBytes2.v
theories/Ex_CopyBytes.v
theories/Prop_CopyBytes.v
theories/Model_LmdbBytes.v
theories/Spec_LmdbBytes.v
theories/Proof_LmdbBytes.v
theories/Proof_LmdbBytes2.v
theories/Proof_LmdbBytes3.v
theories/Ex_LmdbBytes.v
theories/Prop_LmdbBytes.v
theories/Model_LmdbFile.v
theories/Spec_LmdbFile.v
theories/Proof_LmdbFile.v
theories/Proof_LmdbFile2.v
theories/Proof_LmdbFile3.v
theories/Proof_LmdbFile4.v
theories/Proof_LmdbFile5.v
theories/Ex_LmdbFile.v
theories/Prop_LmdbFile.v
