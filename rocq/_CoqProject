-Q theories Verif
theories/Bytes.v
theories/F64.v
theories/Types.v
theories/Text.v
theories/Frame.v
theories/Request.v
theories/Dict.v
theories/CmdSimple.v
theories/CmdKvp.v
theories/CmdSet.v
theories/CmdDeque.v
theories/CmdZset.v
theories/Bincode.v
theories/CmdServer.v
theories/Cmd.v
theories/Db.v
theories/Server.v
theories/Forward.v
theories/Replica.v
theories/Expire.v
theories/Snapshot.v
theories/Follower.v
theories/FanOut.v
theories/BytesFacts.v
theories/SpecFrame.v
theories/FrameFacts.v
theories/SpecRequest.v
theories/RequestFacts.v
theories/Spec.v
theories/DictFacts.v
theories/CmdFacts.v
theories/SpecSimple.v
theories/SimpleFacts.v
theories/SpecCmd.v
theories/TypeFacts.v
theories/SpecSlot.v
theories/SlotFacts.v
theories/SpecDb.v
theories/DbFacts.v
theories/SpecColl.v
theories/CollFacts.v
theories/OrderFacts.v
theories/SpecZset.v
theories/ZsetFacts.v
theories/ZsetInv.v
theories/SpecBincode.v
theories/BincodeFacts.v
theories/SpecVisit.v
theories/VisitFacts.v
theories/SerdeFacts.v
theories/SpecExpire.v
theories/ExpireFacts.v
theories/SpecReplica.v
theories/ReplicaFacts.v
theories/FollowerFacts.v
theories/PropReplica.v
theories/PropExpire.v
theories/PropFrame.v
theories/PropRequest.v
theories/SpecServer.v
theories/ServerFacts.v
theories/WireFacts.v
theories/PropServer.v
theories/PropSlot.v
theories/PropSimple.v
theories/PropDb.v
theories/PropColl.v
theories/PropZset.v
theories/PropSerde.v
theories/Pd.v
theories/SpecPd.v
theories/PdFacts.v
theories/NodeFacts.v
theories/PropPd.v
theories/Limit.v
theories/Locks.v
theories/SpecLocks.v
theories/LockFacts.v
theories/PropLocks.v
theories/Tasks.v
theories/SpecTasks.v
theories/TasksFacts.v
theories/PropTasks.v
theories/Clients.v
theories/SpecClients.v
theories/ClientsFacts.v
theories/PropClients.v
theories/PdWire.v
theories/SpecPdWire.v
theories/PdWireFacts.v
theories/PropPdWire.v
theories/Child.v
theories/SpecChild.v
theories/PropChild.v
theories/TenthFacts.v
theories/PropScore.v
theories/SpecText.v
theories/TextFacts.v
theories/PropExact.v
theories/PropPanic.v
theories/PropTree.v
theories/ProjectTests.v
theories/Btree.v
theories/PropBtree.v
theories/SpecLine.v
theories/LineFacts.v
theories/PropLine.v
theories/SpecMeaning.v
theories/MeaningFacts.v
theories/PropMeaning.v
theories/SpecGrammar.v
theories/PropGrammar.v
theories/SpecNumber.v
theories/NumberFacts.v
theories/RoundFacts.v
theories/PropText.v
theories/PropRest.v
theories/PropSilence.v
theories/PropSent.v
theories/PropAccept.v
theories/SpecTalk.v
theories/PropTalk.v
theories/SpecArrive.v
theories/PropArrive.v
theories/SpecParts.v
theories/PropParts.v
theories/SpecTwo.v
theories/PropTwo.v
theories/SpecWhole.v
theories/PropWhole.v
theories/SpecFlush.v
theories/FlushFacts.v
theories/PropFlush.v
theories/Leader.v
theories/SpecLeader.v
theories/LeaderFacts.v
theories/PropLeader.v
theories/Process.v
theories/SpecProcess.v
theories/ProcessFacts.v
theories/PropProcess.v
theories/DecodeFacts.v
theories/PropNested.v
theories/SpecBack.v
theories/BackFacts.v
theories/PropBack.v
theories/PropAccess.v
theories/SpecAnytime.v
theories/AnytimeFacts.v
theories/PropAnytime.v
theories/PropAnyBytes.v
theories/SpecAlone.v
theories/PropAlone.v
theories/SpecShared.v
theories/PropShared.v
theories/SpecLock.v
theories/PropLock.v
