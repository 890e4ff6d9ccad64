-Q theories Verif
theories/Base.v
theories/PyList.v
theories/OListModel.v
theories/OListSpec.v
theories/OListProofs.v
theories/PropOList.v
theories/KeypathModel.v
theories/KeypathSpec.v
theories/KeypathProofs.v
theories/PropKeypath.v
theories/PyDict.v
theories/ODictModel.v
theories/ODictSpec.v
theories/ODictProofs.v
theories/PropODict.v
theories/OUtilsModel.v
theories/OUtilsSpec.v
theories/OUtilsProofs.v
theories/PropOUtils.v
theories/OGraphModel.v
theories/OGraphSpec.v
theories/StrDict.v
theories/OGraphProofs.v
theories/PropOGraph.v
theories/MGraphModel.v
theories/MGraphSpec.v
theories/MGraphProofs.v
theories/PropMGraph.v
theories/CGraphModel.v
theories/CGraphSpec.v
theories/CGraphProofs.v
theories/PropCGraph.v
theories/Mon.v
theories/ChainModel.v
theories/ChainSpec.v
theories/ChainProofs.v
theories/PropChain.v
theories/Values.v
theories/PyStr.v
theories/CalModel.v
theories/LeafModel.v
theories/LeafSpec.v
theories/LeafNumProofs.v
theories/LeafStrProofs.v
theories/PropNum.v
theories/PropStr.v
theories/CalSpec.v
theories/CalProofs.v
theories/PropCal.v
theories/TypesModel.v
theories/TypesSpec.v
theories/TypesProofs.v
theories/PropTypes.v
theories/ObjModel.v
theories/ObjSpec.v
theories/ObjList.v
theories/ObjTrack.v
theories/ObjExample.v
theories/PropTrack.v
theories/ObjReset.v
theories/PropReset.v
theories/LinkAbs.v
theories/LinkRun.v
theories/LinkOps.v
theories/LinkFrame.v
theories/LinkSpec.v
theories/LinkHist.v
theories/PropLink.v
theories/JConfModel.v
theories/JConfSpec.v
theories/PropJConf.v
theories/RTypesModel.v
theories/RTypesSpec.v
theories/RTypesProofs.v
theories/PropRTypes.v
theories/IoModel.v
theories/IoBase.v
theories/EnumSpec.v
theories/EnumProofs.v
theories/IoExample.v
theories/PropEnum.v
theories/UnionSpec.v
theories/UnionProofs.v
theories/PropUnion.v
theories/Sound.v
theories/ObjSound.v
theories/LeafSound.v
theories/IoSound.v
theories/CivilSpec.v
theories/IoEffects.v
theories/PresenceSpec.v
theories/PropPresence.v
theories/ValidateSpec.v
theories/ValidateProofs.v
theories/PropValidate.v
theories/CollectionSpec.v
theories/CollectionProofs.v
theories/PropCollection.v
theories/UpdateSpec.v
theories/UpdateProofs.v
theories/PropUpdate.v
theories/SaveSpec.v
theories/SaveProofs.v
theories/PropGuard.v
theories/UnlinkedProofs.v
theories/PropSave.v
theories/StrictSpec.v
theories/StrictProofs.v
theories/InitProofs.v
theories/PropStrict.v
theories/KpSetSpec.v
theories/KpSetProofs.v
theories/PropKpSet.v
theories/TameSpec.v
theories/Keep.v
theories/TameProofs.v
theories/GraphSpec.v
theories/GraphProofs.v
theories/PropGraph.v
theories/OutSpec.v
theories/OutProofs.v
theories/OutRun.v
theories/OutTop.v
theories/PropOut.v
theories/OnsaveSpec.v
theories/OnsaveProofs.v
theories/PropOnsave.v
theories/WriteSpec.v
theories/WriteFrame.v
theories/WriteProofs.v
theories/PropWrite.v
theories/MakeSpec.v
theories/MakeProofs.v
theories/PropMake.v
theories/ClassFrame.v
theories/SaveGraphSpec.v
theories/SaveGraphProofs.v
theories/PropSaveGraph.v
theories/RegexModel.v
theories/RegexSpec.v
theories/RegexProofs.v
theories/PropRegex.v
theories/PyInt.v
theories/UconfModel.v
theories/UconfSpec.v
theories/UconfProofs.v
theories/PropUconf.v
theories/CallSpec.v
theories/CallProofs.v
theories/PropCall.v
theories/FetchModel.v
theories/FetchSpec.v
theories/PropFetch.v
theories/RandomModel.v
theories/RandomSpec.v
theories/PropRandom.v
theories/ConvModel.v
theories/ConvSpec.v
theories/ConvProofs.v
theories/PropConv.v
theories/OwnModel.v
theories/OwnSpec.v
theories/PropOwn.v
theories/EqModel.v
theories/EqSpec.v
theories/EqProofs.v
theories/PropEq.v
theories/ReachSpec.v
theories/ReachProofs.v
theories/PropReach.v
theories/Say.v
theories/ReportSpec.v
theories/ReportProofs.v
theories/PropReport.v
theories/RefKeysSpec.v
theories/RefKeysProofs.v
theories/PropRefKeys.v
theories/OutFormSpec.v
theories/OutFormProofs.v
theories/PropOutForm.v
theories/CalcModel.v
theories/CalcSpec.v
theories/CalcProofs.v
theories/PropCalcField.v
theories/SetInSpec.v
theories/SetInProofs.v
theories/PropSetIn.v
theories/RoundSpec.v
theories/RoundProofs.v
theories/PropRound.v
theories/ClassModel.v
theories/ClassSpec.v
theories/ClassProofs.v
theories/PropClass.v
theories/PropSides.v
theories/Mute.v
theories/InErrSpec.v
theories/InErrProofs.v
theories/PropInErr.v
theories/NestSpec.v
theories/NestProofs.v
theories/PropNest.v
theories/TripSpec.v
theories/TripProofs.v
theories/PropTrip.v
theories/LogFree.v
theories/ReadSpec.v
theories/ReadProofs.v
theories/PropRead.v
theories/EncModel.v
theories/EncSpec.v
theories/EncProofs.v
theories/PropEnc.v
theories/GiveSpec.v
theories/GiveProofs.v
theories/GiveLink.v
theories/PropGive.v
theories/GiveNew.v
theories/PropGiveNew.v
theories/SubModel.v
theories/SubSpec.v
theories/SubProofs.v
theories/PropSub.v
theories/FmtModel.v
theories/PropFmt.v
theories/BackModel.v
theories/BackSpec.v
theories/PropBack.v
theories/LiveModel.v
theories/PropLive.v
theories/KeyAssignSpec.v
theories/PropKeyAssign.v
theories/ExcModel.v
theories/PropExc.v
theories/PropLinkErr.v
theories/PrepSpec.v
theories/PrepProofs.v
theories/PropPrep.v
theories/NoneSpec.v
theories/PropNone.v
theories/NestLinkSpec.v
theories/NestLinkProofs.v
theories/PropNestLink.v
theories/PrevIdModel.v
theories/PrevIdProofs.v
theories/PropPrevId.v
theories/PropNestCall.v
theories/SaveCallSpec.v
theories/SaveCallProofs.v
theories/PropSaveCall.v
theories/TextSpec.v
theories/TextProofs.v
theories/PropText.v
theories/JEnumModel.v
theories/JEnumSpec.v
theories/PropJEnum.v
