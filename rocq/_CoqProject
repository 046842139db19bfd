-Q theories Verif
theories/Base.v
theories/Utf8.v
theories/UnicodeTables.v
theories/Case.v
theories/Num.v
theories/Io.v
theories/Parser.v
theories/Types.v
theories/Message.v
theories/Outgoing.v
theories/Client.v
theories/Server.v
theories/Ssl.v
theories/Transport.v
theories/Lemmas.v
theories/ReadLemmas.v
theories/NumLemmas.v
theories/Utf8Lemmas.v
theories/ChunkSpec.v
theories/ChunkLemmas.v
theories/BodyLemmas.v
theories/WriteLemmas.v
theories/ParserLemmas.v
theories/CaseLemmas.v
theories/TypesLemmas.v
theories/HeadLemmas.v
theories/BlockLemmas.v
theories/MsgLemmas.v
theories/PBody.v
theories/PIo.v
theories/PParse.v
theories/SimLemmas.v
theories/CountLemmas.v
theories/OutLemmas.v
theories/KeepLemmas.v
theories/ErrLemmas.v
theories/PHead.v
theories/PCount.v
theories/POut.v
theories/PUrl.v
theories/PPool.v
theories/PReuse.v
theories/PServer.v
theories/PSsl.v
theories/PEnd.v
theories/PFlush.v
theories/PErr.v
theories/PTls.v
theories/NetLemmas.v
theories/Net.v
theories/NetSock.v
theories/NetStep.v
theories/NetFav.v
theories/NetFacts.v
theories/PNet.v
theories/PPut.v
theories/PTwice.v
theories/PPanic.v
theories/PAdd.v
theories/PReset.v
theories/PUnread.v
theories/PMany.v
theories/PForward.v
theories/Files.v
theories/PFile.v
theories/PShare.v
theories/PBodiless.v
theories/Session.v
theories/PSession.v
theories/Commands.v
theories/PCommands.v
theories/Docs.v
theories/PDocs.v
theories/PRelay.v
theories/PEndless.v
theories/ErrText.v
theories/PText.v
theories/PTell.v
theories/PCut.v
theories/PFraming.v
theories/PValid.v
theories/PTrailer.v
theories/PConform.v
theories/PTarget.v
theories/PExpect.v
theories/PCase.v
theories/PBuilds.v
theories/PAgnostic.v
theories/PCrash.v
theories/PUnique.v
theories/Lent.v
theories/PLent.v
theories/Turns.v
theories/PTurns.v
theories/PEdges.v
theories/PClientCrash.v
