-Q theories Verif
theories/Base.v
theories/UTF8Model.v
theories/UTF8Spec.v
theories/UTF8Proofs.v
theories/UTF8Props.v
theories/UTF16Model.v
theories/UTF16Proofs.v
theories/UTF16Props.v
theories/CharTables.v
theories/CharModel.v
theories/CharSpec.v
theories/CharProofs.v
theories/CharProps.v
theories/ErrNumModel.v
theories/ErrNumProofs.v
theories/ErrNumProps.v
theories/PtrModel.v
theories/PtrProofs.v
theories/PtrProps.v
theories/RefModel.v
theories/RefSpec.v
theories/RefProofs.v
theories/RefProps.v
theories/LatchModel.v
theories/LatchProofs.v
theories/LatchProps.v
theories/ThreadModel.v
theories/ThreadProofs.v
theories/ThreadProps.v
theories/ArrayModel.v
theories/ArraySpec.v
theories/ArrayProofs.v
theories/ArrayHeap.v
theories/ArrayOps.v
theories/ArrayState.v
theories/ArraySafe.v
theories/ArrayRead.v
theories/ArrayProps.v
theories/CowModel.v
theories/CowSpec.v
theories/CowProofs.v
theories/CowProps.v
theories/StrModel.v
theories/StrSpec.v
theories/StrHeap.v
theories/StrState.v
theories/StrText.v
theories/StrOps.v
theories/StrIsoProps.v
theories/StrEdit.v
theories/StrMore.v
theories/StrJson.v
theories/XformModel.v
theories/XformSpec.v
theories/XformProofs.v
theories/XformProps.v
theories/StrInv.v
theories/StrProps.v
theories/StrFindModel.v
theories/StrFindSpec.v
theories/StrFindProofs.v
theories/StrFindProps.v
theories/StrNumModel.v
theories/StrNumSpec.v
theories/StrNumProofs.v
theories/StrNumErr.v
theories/StrNumProps.v
theories/JsonSpec.v
theories/JsonProps.v
theories/PegModel.v
theories/PegSpec.v
theories/PegText.v
theories/PegSrc.v
theories/PegEval.v
theories/PegSkip.v
theories/PegMatch.v
theories/PegTotal.v
theories/PegLookup.v
theories/PegAscii.v
theories/PegGram.v
theories/PegQuiet.v
theories/PegProps.v
theories/PegFailModel.v
theories/PegFailSpec.v
theories/PegFailProofs.v
theories/PegFailProps.v
theories/VarModel.v
theories/VarSpec.v
theories/VarProofs.v
theories/VarSim.v
theories/VarCoerce.v
theories/VarProps.v
theories/VarJsonModel.v
theories/VarJsonSpec.v
theories/VarJsonUnique.v
theories/VarJsonProps.v
theories/RxCompModel.v
theories/RxModel.v
theories/RxSpec.v
theories/RxVm.v
theories/RxScan.v
theories/RxSpellSpec.v
theories/RxSpell.v
theories/RxGen.v
theories/RxRun.v
theories/RxProg.v
theories/RxTotal.v
theories/RxCheck.v
theories/RxSize.v
theories/RxProps.v
theories/RxCode.v
theories/RxTame.v
theories/RxLay.v
theories/RxSafe.v
theories/RxShort.v
theories/RxSafeProps.v
theories/RxStraight.v
theories/RxStraightProps.v
theories/RxQuant.v
theories/RxQuantProps.v
theories/RxAnchor.v
theories/RxAnchorProps.v
theories/RxMany.v
theories/RxManyProps.v
theories/RxDumpModel.v
theories/RxDumpSpec.v
theories/RxDumpProofs.v
theories/RxDumpProps.v
theories/StrJoin.v
theories/StrJoinProps.v
theories/FmtModel.v
theories/FmtSpec.v
theories/FmtProps.v
theories/CondModel.v
theories/CondProps.v
theories/ConcModel.v
theories/ConcSpec.v
theories/ConcProofs.v
theories/ConcCount.v
theories/ConcProps.v
theories/ShareModel.v
theories/ShareSpec.v
theories/ShareProofs.v
theories/ShareProps.v
theories/ResModel.v
theories/ResSpec.v
theories/ResProofs.v
theories/ResProps.v
theories/LatchInitModel.v
theories/LatchInitProps.v
theories/ElemRefModel.v
theories/ElemRefSpec.v
theories/ElemRefProofs.v
theories/ElemRefProps.v
theories/NestModel.v
theories/NestSpec.v
theories/NestProofs.v
theories/NestEdit.v
theories/NestSim.v
theories/NestProps.v
theories/ThreadIdModel.v
theories/ThreadIdSpec.v
theories/ThreadIdProofs.v
theories/ThreadIdProps.v
theories/YieldModel.v
theories/YieldProps.v
theories/RxErrModel.v
theories/RxErrProofs.v
theories/RxErrTrack.v
theories/RxErrSyn.v
theories/RxErrProps.v
theories/RxMsgSpec.v
theories/RxMsgProofs.v
theories/RxMsgProps.v
theories/SpinModel.v
theories/SpinProps.v
theories/WinCondModel.v
theories/WinCondProps.v
theories/ErrorModel.v
theories/ErrorSpec.v
theories/ErrorProps.v
theories/RawModel.v
theories/RawSpec.v
theories/RawProofs.v
theories/RawProps.v
theories/RepoTests.v
