-Q theories Verif
theories/GoBytes.v
theories/GoNum.v
theories/GoIO.v
theories/GoScan.v
theories/GoBufio.v
theories/GoSlice.v
theories/Item.v
theories/ClientText.v
theories/ClientMeta.v
theories/ClientBinary.v
theories/GoWriter.v
theories/Hash.v
theories/Ring.v
theories/Pool.v
theories/ServerTypes.v
theories/ServerParse.v
theories/ServerWrite.v
theories/Serve.v
theories/ServerIO.v
theories/ServerConc.v
theories/ReadProg.v
theories/Cache.v
theories/Daemon.v
theories/Spec.v
theories/Call.v
theories/Memory.v
theories/Guard.v
theories/Transport.v
theories/Lifecycle.v
theories/Conc.v
theories/PoolConc.v
theories/Intent.v
theories/PLib.v
theories/PScan.v
theories/PDaemon.v
theories/PCache.v
theories/PUtf8.v
theories/PText.v
theories/PMeta.v
theories/PBinary.v
theories/PClient.v
theories/PropClient.v
theories/PropCalls.v
theories/PropUpdate.v
theories/PropWire.v
theories/RingSpec.v
theories/RingData.v
theories/PRing.v
theories/PropRing.v
theories/CollisionData.v
theories/PropRingExact.v
theories/PReader.v
theories/PropReply.v
theories/PoolSpec.v
theories/PPool.v
theories/PMulti.v
theories/PropPool.v
theories/ServerSpec.v
theories/ServerCrash.v
theories/PServer.v
theories/PServe.v
theories/PropServer.v
theories/PReply.v
theories/PropServerReply.v
theories/PropHandler.v
theories/PBufio.v
theories/PReadProg.v
theories/PropBufio.v
theories/PWriter.v
theories/PropWriter.v
theories/PMemory.v
theories/PropMemory.v
theories/Replica.v
theories/ReplicaSpec.v
theories/PReplica.v
theories/PropReplica.v
theories/PropReplicaCas.v
theories/Proxy.v
theories/PropProxy.v
theories/PLifecycle.v
theories/PropLifecycle.v
theories/PStream.v
theories/TimeConc.v
theories/PropConc.v
theories/PropServerIO.v
theories/PropServerConc.v
theories/RouterConc.v
theories/PropRouter.v
theories/PropRouterLin.v
theories/PropRouterRest.v
theories/PropRouterSync.v
theories/RouterFail.v
theories/PropRouterFail.v
theories/PropPoolConc.v
theories/PropPoolMulti.v
theories/PropServerCrash.v
theories/PropServerEnds.v
theories/PropRouterEnds.v
theories/RouterWait.v
theories/Main.v
theories/PropRouterWait.v
theories/PropMetaSet.v
theories/Exact.v
theories/PropExact.v
theories/ReplicaConc.v
theories/PropReplicaConc.v
theories/PropFollow.v
theories/PropRouterPool.v
theories/PropMetaGet.v
theories/Deadline.v
theories/PropDeadline.v
theories/Talk.v
theories/PropTalk.v
theories/PropClients.v
theories/PropMain.v
theories/PropLag.v
theories/HeaderPool.v
theories/PropHeaderPool.v
theories/PoolLoss.v
theories/PropPoolLoss.v
theories/PropTimeConc.v
theories/TimePool.v
theories/PropTimePool.v
theories/ManyConc.v
theories/PropManyConc.v
theories/ManyProto.v
theories/PropManyProto.v
theories/PropManyEnds.v
theories/PropManyMulti.v
theories/TimeProto.v
theories/PropTimeProto.v
theories/PropPoolEnds.v
theories/PropPoolMore.v
