-Q theories Verif
theories/PyBase.v
theories/PyStr.v
theories/Source.v
theories/Field.v
theories/Context.v
theories/Fields.v
theories/Demo.v
theories/Shape.v
theories/Balance.v
theories/Threads.v
theories/SpecCtx.v
theories/CtxProofs.v
theories/PropsContext.v
theories/SpecSrc.v
theories/SrcPath.v
theories/SrcProofs.v
theories/SpecRound.v
theories/RoundProofs.v
theories/FloatProofs.v
theories/SpecParse.v
theories/ParseProofs.v
theories/PropsSource.v
theories/Eval.v
theories/Sim.v
theories/DataRegime.v
theories/Pids.v
theories/Refine.v
theories/RefinePoly.v
theories/Regime.v
theories/CfgRegime.v
theories/PropsEval.v
theories/Reads.v
theories/SpecField.v
theories/SpecPipe.v
theories/Run.v
theories/FieldProofs.v
theories/FieldVios.v
theories/FieldLemmas.v
theories/DecProofs.v
theories/PropsField.v
theories/SpecBox.v
theories/BoxProofs.v
theories/BoxLemmas.v
theories/PropsBox.v
theories/SpecLocal.v
theories/LocalProofs.v
theories/SpecDrop.v
theories/DropProofs.v
theories/DropLemmas.v
theories/PropsDrop.v
theories/SpecForm.v
theories/StillProofs.v
theories/FormProofs.v
theories/FormLemmas.v
theories/PropsForm.v
theories/SpecJson.v
theories/CrashProofs.v
theories/ModeProofs.v
theories/PropsJson.v
theories/ReadProofs.v
theories/ReadMore.v
theories/CaptureProofs.v
theories/PropsKeys.v
theories/SpecUnion.v
theories/UnionProofs.v
theories/UnionLemmas.v
theories/PropsUnion.v
theories/SpecMount.v
theories/MountProofs.v
theories/PropsMount.v
theories/Forms.v
theories/SpecForms.v
theories/ObjProofs.v
theories/LeafProofs.v
theories/SpecAttr.v
theories/AttrProofs.v
theories/FormsLemmas.v
theories/PropsObj.v
theories/Meta.v
theories/SpecMeta.v
theories/MetaProofs.v
theories/LineProofs.v
theories/MetaLemmas.v
theories/BuiltProofs.v
theories/SpecPoly.v
theories/PolyProofs.v
theories/ProbeProofs.v
theories/PropsMeta.v
theories/PropsProbe.v
theories/SpecTame.v
theories/TameProofs.v
theories/AgainProofs.v
theories/TwiceProofs.v
theories/FlatProofs.v
theories/StopProofs.v
theories/PropsTwice.v
theories/SpecReset.v
theories/ResetProofs.v
theories/PropsReset.v
theories/SpecPos.v
theories/PosProofs.v
theories/PropsPos.v
theories/Build.v
theories/SpecBuild.v
theories/MakeProofs.v
theories/Make73.v
theories/Make74.v
theories/Make77.v
theories/Make81.v
theories/SpecClock.v
theories/Make82.v
theories/PropsBuild.v
theories/PropsPlace.v
theories/SpecChain.v
theories/ChainProofs.v
theories/CloneProofs.v
theories/KeywordProofs.v
theories/PropsChain.v
theories/More.v
theories/SpecMore.v
theories/MoreProofs.v
theories/PropsMore.v
theories/SpecWhy.v
theories/Why.v
theories/Why36.v
theories/Why50.v
theories/Why62.v
theories/Why68.v
theories/PropsWhy.v
theories/PathEdit.v
theories/FromContext.v
theories/SpecFrom.v
theories/FromProofs.v
theories/PropsFrom.v
theories/Reports.v
theories/Formats.v
theories/SpecReport.v
theories/ReportProofs.v
theories/PropsReport.v
theories/SpecAs.v
theories/AsProofs.v
theories/PropsAs.v
theories/SpecEdit.v
theories/EditProofs.v
theories/EditMount.v
theories/EditValue.v
theories/PropsEdit.v
theories/SpecNum.v
theories/NumProofs.v
theories/EqProofs.v
theories/PropsNum.v
theories/SpecFormat.v
theories/FormatProofs.v
theories/PropsFormat.v
theories/SpecAlone.v
theories/AloneProofs.v
theories/SpecJoin.v
theories/JoinProofs.v
theories/JoinLemmas.v
theories/JoinDeep.v
theories/JoinTree.v
theories/JoinAgain.v
theories/JoinFlat.v
theories/JoinNative.v
theories/PropsJoin.v
theories/PropsFlat.v
theories/PropsNative.v
theories/PropsAlone.v
theories/SpecOpen.v
theories/OpenProofs.v
theories/PropsOpen.v
theories/JoinCapture.v
theories/PropsCapture.v
theories/SpecOrder.v
theories/OrderProofs.v
theories/PropsOrder.v
theories/SpecHooks.v
theories/HooksProofs.v
theories/SpecStrict.v
theories/StrictProofs.v
theories/PropsStrict.v
theories/SpecMove.v
theories/MoveProofs.v
theories/PropsMove.v
theories/SpecDepth.v
theories/DepthProofs.v
theories/PropsDepth.v
theories/SpecView.v
theories/ViewProofs.v
theories/PropsView.v
theories/SpecOthers.v
theories/OthersProofs.v
theories/PropsOthers.v
theories/SpecOwn.v
theories/OwnProofs.v
theories/PropsOwn.v
