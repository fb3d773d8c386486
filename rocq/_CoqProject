-Q theories Verif
theories/Base.v
theories/BaseLemmas.v
theories/Wtf8Spec.v
theories/Wtf8Model.v
theories/MutfModel.v
theories/Wtf8Proofs.v
theories/Wtf8Proofs2.v
theories/Wtf8Proofs3.v
theories/MutfProofs.v
theories/Wtf8Props.v
theories/PrimModel.v
theories/PrimProofs.v
theories/PrimSpec.v
theories/PrimProps.v
theories/TypeModel.v
theories/TypeSpec.v
theories/TypeProofs.v
theories/TypeProofs2.v
theories/TypeProps.v
theories/ArrayProps.v
theories/CpModel.v
theories/CpSpec.v
theories/CpProofs.v
theories/CpProps.v
theories/SigModel.v
theories/SigSpec.v
theories/SigProofs.v
theories/SigProofs2.v
theories/SigProps.v
theories/FileSpec.v
theories/AnnModel.v
theories/AnnSpec.v
theories/AnnProofs.v
theories/AnnProps.v
theories/AttrModel.v
theories/AttrSpec.v
theories/AttrProofs.v
theories/AttrProps.v
theories/FrameModel.v
theories/FrameSpec.v
theories/FrameProofs.v
theories/FrameProps.v
theories/InsnModel.v
theories/InsnSpec.v
theories/InsnProofs.v
theories/InsnProps.v
theories/CodeModel.v
theories/CodeSpec.v
theories/CodeProofs.v
theories/CodeWrite.v
theories/CodeRead.v
theories/CodeProps.v
theories/FarProps.v
theories/CodeUndef.v
theories/ReadProofs.v
theories/CodeAccept.v
theories/ClassModel.v
theories/ClassSpec.v
theories/ClassGrow.v
theories/ClassProofs.v
theories/ClassProps.v
theories/ClassStable.v
theories/ForeignSpec.v
theories/ForeignCode.v
theories/ForeignClassSpec.v
theories/ForeignClass.v
theories/ForeignProps.v
theories/EqModel.v
theories/EqSpec.v
theories/EqProps.v
theories/HelperProps.v
theories/TraceModel.v
theories/TraceProps.v
theories/PointModel.v
theories/PointProps.v
theories/PanicProofs.v
theories/PanicCode.v
theories/DebugSim.v
theories/PanicProps.v
theories/StrModel.v
theories/StrProps.v
theories/CodeStable.v
theories/ClassCodeStable.v
theories/SettleProofs.v
theories/WriteSim.v
theories/WriteSpec.v
theories/LaxProofs.v
theories/ReadText.v
theories/WriteKinds.v
theories/WriteProps.v
theories/ReadTyped.v
theories/RereadProps.v
theories/NeededProps.v
theories/RefModel.v
theories/RefProps.v
theories/DeriveModel.v
theories/DeriveProps.v
theories/ConfigModel.v
theories/ConfigSpec.v
theories/ConfigProps.v
theories/CountProps.v
theories/NestProps.v
theories/OrderModel.v
theories/OrderProps.v
theories/TidySpec.v
theories/ReadWf.v
theories/ReadWfAttr.v
theories/ReadWfCode.v
theories/TidyProps.v
theories/LostProps.v
theories/DrawnSpec.v
theories/DrawnProofs.v
theories/DrawnProps.v
theories/PutSpec.v
theories/PutProofs.v
theories/PutProps.v
theories/SaidProps.v
theories/FitProofs.v
theories/FitProps.v
theories/HintProps.v
