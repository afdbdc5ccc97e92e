-Q theories Verif
theories/Bytes.v
theories/IoRead.v
theories/IoReadProofs.v
theories/IoWrite.v
theories/IoWriteProofs.v
theories/IoRoundTrip.v
theories/IoSafety.v
theories/Prop_Io.v
theories/CStr.v
theories/Caps.v
theories/Hello.v
theories/HelloProofs.v
theories/Prop_Hello.v
theories/PsQueue.v
theories/PsQueueProofs.v
theories/Prop_PsQueue.v
theories/PsSess.v
theories/Prop_PsSess.v
theories/PsPoll.v
theories/Prop_PsFair.v
theories/Prop_PsTerm.v
theories/Prop_PsServe.v
theories/RpcLock.v
theories/Prop_RpcLock.v
theories/Notif.v
theories/Prop_Notif.v
theories/Time.v
theories/Prop_Time.v
theories/ClientMsgs.v
theories/Prop_ClientSend.v
theories/Prop_ClientRecv.v
theories/ModInfo.v
theories/Prop_ChBinds.v
theories/Prop_ModInfo.v
theories/SshKeys.v
theories/Prop_SshPath.v
theories/Prop_SshKeys.v
theories/SshAuth.v
theories/Prop_SshAuth.v
theories/SshRing.v
theories/Prop_SshRing.v
theories/TlsNames.v
theories/Prop_TlsHex.v
theories/Prop_TlsName.v
theories/Prop_TlsVerify.v
theories/CallHome.v
theories/Prop_CallHome.v
theories/CertExp.v
theories/Prop_Calendar.v
theories/Prop_CertExp.v
theories/CertThread.v
theories/Prop_CertThread.v
theories/Endpts.v
theories/Prop_Endpts.v
theories/Accept.v
theories/Prop_Accept.v
theories/Refs.v
theories/Prop_Refs.v
theories/Err.v
theories/Prop_Err.v
theories/PsLife.v
theories/Prop_PsLife.v
theories/Stores.v
theories/Prop_Stores.v
theories/RpcSend.v
theories/Prop_RpcSend.v
theories/Algs.v
theories/Prop_Algs.v
theories/Prop_Messages.v
theories/ClientSsh.v
theories/Prop_ClientSsh.v
theories/TlsConn.v
theories/Prop_TlsConn.v
theories/KeyFiles.v
theories/Prop_KeyFiles.v
theories/CrlUris.v
theories/Prop_CrlUris.v
theories/ChConf.v
theories/Prop_ChConf.v
theories/ChThread.v
theories/Prop_ChThread.v
theories/CtxFill.v
theories/Prop_CtxFill.v
theories/SockConn.v
theories/Prop_SockConn.v
theories/KsTs.v
theories/Prop_KsTs.v
theories/KbdInt.v
theories/Prop_KbdInt.v
theories/NotifThr.v
theories/Prop_NotifThr.v
theories/ClientCtx.v
theories/Prop_ClientCtx.v
theories/SshConf.v
theories/Prop_SshConf.v
theories/CfgBuild.v
theories/Prop_CfgBuild.v
theories/MsgMem.v
theories/Prop_MsgMem.v
theories/Prompt.v
theories/Prop_Prompt.v
theories/CertCfg.v
theories/Prop_CertCfg.v
theories/UnixSock.v
theories/Prop_UnixSock.v
theories/GetSchema.v
theories/Prop_GetSchema.v
theories/SchemaStore.v
theories/Prop_SchemaStore.v
theories/SessFree.v
theories/Prop_SessFree.v
theories/ClientOpts.v
theories/Prop_ClientOpts.v
theories/TransportIo.v
theories/Prop_TransportIo.v
theories/SshConn.v
theories/Prop_SshConn.v
theories/ServerLife.v
theories/Prop_ServerLife.v
theories/Route.v
theories/Prop_Route.v
theories/ReplyOp.v
theories/Prop_ReplyOp.v
theories/Prop_IoAny.v
theories/TlsLoad.v
theories/Prop_TlsLoad.v
theories/LogMsg.v
theories/Prop_LogMsg.v
theories/AlgReport.v
theories/Prop_AlgReport.v
theories/ChClient.v
theories/Prop_ChClient.v
theories/TlsChain.v
theories/Prop_TlsChain.v
theories/Prop_SshOffer.v
theories/Prop_PsErr.v
theories/Prop_EndptsEnd.v
theories/Prop_KilledBy.v
theories/Prop_Encrypted.v
theories/Prop_YlModule.v
theories/Prop_Names.v
theories/Prop_HelloFeat.v
theories/Prop_Prefs.v
theories/TiChange.v
theories/Prop_TiChange.v
theories/Prop_SubRev.v
theories/Prop_ErrRead.v
theories/WholeData.v
theories/Prop_WholeData.v
theories/Prop_ImpOrder.v
theories/Locks.v
theories/Prop_Locks.v
theories/Prop_KeyPair.v
theories/Prop_FreeWait.v
theories/PsRace.v
theories/Prop_PsRace.v
theories/RpcClb.v
theories/Prop_RpcClb.v
theories/SshWait.v
theories/Prop_SshWait.v
theories/IoTime.v
theories/Prop_IoTime.v
theories/ReadPoll.v
theories/Prop_ReadPoll.v
theories/Prop_Exchange.v
theories/SanNames.v
theories/Prop_SanNames.v
theories/Prop_Broken.v
theories/Prop_Meet.v
theories/TlsAlloc.v
theories/Prop_TlsAlloc.v
theories/AcceptHost.v
theories/Prop_AcceptHost.v
theories/ClientCb.v
theories/Prop_ClientCb.v
theories/GrowBuf.v
theories/Prop_GrowBuf.v
theories/MiMem.v
theories/Prop_MiMem.v
theories/HostKeys.v
theories/Prop_HostKeys.v
theories/MbedCiph.v
theories/Prop_MbedCiph.v
theories/KeyFmt.v
theories/Prop_KeyFmt.v
theories/EndptMem.v
theories/Prop_EndptMem.v
theories/TiSwitch.v
theories/Prop_TiSwitch.v
theories/ErrPath.v
theories/Prop_ErrPath.v
theories/NotifSend.v
theories/Prop_NotifSend.v
theories/CrlMem.v
theories/Prop_CrlMem.v
theories/ReplyTree.v
theories/Prop_ReplyTree.v
theories/PwBuf.v
theories/Prop_PwBuf.v
theories/MbedVers.v
theories/Prop_MbedVers.v
theories/CrlMove.v
theories/Prop_CrlMove.v
theories/VerInfo.v
theories/Prop_VerInfo.v
theories/CiphSet.v
theories/Prop_CiphSet.v
theories/CaLoad.v
theories/Prop_CaLoad.v
