-Q theories Verif
theories/AeadSpec.v
theories/ArxModel.v
theories/ArxProofs.v
theories/ArxProps.v
theories/Base.v
theories/BeltModel.v
theories/BeltProps.v
theories/BencodeModel.v
theories/BencodeProofs.v
theories/BencodeProps.v
theories/BencodeSpec.v
theories/BerModel.v
theories/BerProofs.v
theories/BerProps.v
theories/BerSpec.v
theories/BigModel.v
theories/BksModel.v
theories/BksProofs.v
theories/BksProps.v
theories/BksSpec.v
theories/BlkSpec.v
theories/BlockModeModel.v
theories/BlockModeProofs.v
theories/BlockModeProps.v
theories/BlockModeSpec.v
theories/BmpModel.v
theories/BmpProofs.v
theories/BmpProps.v
theories/BmpSpec.v
theories/CcmModel.v
theories/CcmProofs.v
theories/CcmProps.v
theories/CcmSpec.v
theories/ChunkerProofs.v
theories/CipherLaws.v
theories/CombModel.v
theories/CombProofs.v
theories/CombProps.v
theories/CurveModel.v
theories/CurveSpec.v
theories/DhModel.v
theories/DhProps.v
theories/DhSpec.v
theories/DrbgModel.v
theories/DrbgProofs.v
theories/DrbgProofs2.v
theories/DrbgProps.v
theories/DrbgSpec.v
theories/EaxModel.v
theories/EaxProps.v
theories/EaxSpec.v
theories/Ec2Model.v
theories/Ec2Proofs.v
theories/Ec2Proofs2.v
theories/Ec2Proofs3.v
theories/Ec2Props.v
theories/Ec2Spec.v
theories/EcSigModel.v
theories/EcSigProofs.v
theories/EcSigProofs2.v
theories/EcSigProps.v
theories/EcSigSpec.v
theories/ElgModel.v
theories/ElgProofs.v
theories/ElgProps.v
theories/ElgSpec.v
theories/FeedbackModel.v
theories/FeedbackProofs.v
theories/FeedbackProofs2.v
theories/FeedbackProps.v
theories/FeedbackSpec.v
theories/FernetModel.v
theories/FernetProofs.v
theories/FernetProps.v
theories/FernetSpec.v
theories/FlModel.v
theories/FlProofs.v
theories/FlProofs2.v
theories/FlProofs3.v
theories/FlProps.v
theories/FlSpec.v
theories/FpeModel.v
theories/FpeProofs.v
theories/FpeProofs2.v
theories/FpeProofs3.v
theories/FpeProps.v
theories/FpeSpec.v
theories/G10Model.v
theories/G10Proofs.v
theories/G10Proofs2.v
theories/G10Proofs3.v
theories/G10Proofs4.v
theories/G10Props.v
theories/G10Spec.v
theories/Gf2Proofs.v
theories/Gf2Spec.v
theories/Hash1Model.v
theories/Hash1Proofs.v
theories/Hash1Props.v
theories/Hash1Spec.v
theories/Hash2Model.v
theories/Hash2Proofs.v
theories/Hash2Props.v
theories/Hash2Spec.v
theories/Hash3Model.v
theories/Hash3Proofs.v
theories/Hash3Props.v
theories/Hash3Spec.v
theories/HashSpec.v
theories/HbufModel.v
theories/HbufProofs.v
theories/HbufSpec.v
theories/HctrModel.v
theories/HctrProofs.v
theories/HctrProps.v
theories/HctrSpec.v
theories/HexLit.v
theories/IdeaModel.v
theories/IdeaProps.v
theories/IesModel.v
theories/IesProofs.v
theories/IesProps.v
theories/IesSpec.v
theories/JksModel.v
theories/JksProofs.v
theories/JksProps.v
theories/JksSpec.v
theories/KcModel.v
theories/KcProofs.v
theories/KcProofs2.v
theories/KcProofs3.v
theories/KcProofs4.v
theories/KcProps.v
theories/KcSpec.v
theories/KdfModel.v
theories/KdfProofs.v
theories/KdfProofs2.v
theories/KdfProofs3.v
theories/KdfProps.v
theories/KdfSpec.v
theories/LmsModel.v
theories/LmsProofs.v
theories/LmsProofs2.v
theories/LmsProofs3.v
theories/LmsProofs4.v
theories/LmsProofs5.v
theories/LmsProofs6.v
theories/LmsProps.v
theories/LmsSpec.v
theories/MacModel.v
theories/MacProofs.v
theories/MacProps.v
theories/MacSpec.v
theories/MgmModel.v
theories/MgmProofs.v
theories/MgmProps.v
theories/MgmSpec.v
theories/ModRw.v
theories/NumLib.v
theories/Ocb3Model.v
theories/Ocb3Proofs.v
theories/Ocb3Props.v
theories/OcbModel.v
theories/OcbProofs.v
theories/OcbProps.v
theories/OcbSpec.v
theories/OffsetSpec.v
theories/PaddingModel.v
theories/PaddingProofs.v
theories/PaddingProps.v
theories/PbeModel.v
theories/PbeProofs.v
theories/PbeProps.v
theories/PbeSpec.v
theories/PemModel.v
theories/PemProofs.v
theories/PemProps.v
theories/PemSpec.v
theories/PmacModel.v
theories/PmacProofs.v
theories/PmacProps.v
theories/PmacSpec.v
theories/PwModel.v
theories/PwProofs.v
theories/PwProps.v
theories/PwSpec.v
theories/RabinModel.v
theories/RabinProofs.v
theories/RabinProps.v
theories/RabinSpec.v
theories/RcModel.v
theories/RcProps.v
theories/RsaModel.v
theories/RsaProofs.v
theories/RsaProofs2.v
theories/RsaProofs3.v
theories/RsaProps.v
theories/RsaSpec.v
theories/Sc1Model.v
theories/Sc1Proofs.v
theories/Sc1Props.v
theories/Sc1Spec.v
theories/Sc2Model.v
theories/Sc2Proofs.v
theories/Sc2Props.v
theories/Sc2Spec.v
theories/Sc3Model.v
theories/Sc3Proofs.v
theories/Sc3Proofs2.v
theories/Sc3Proofs3.v
theories/Sc3Props.v
theories/Sc3Spec.v
theories/Sc4Model.v
theories/Sc4Proofs.v
theories/Sc4Proofs2.v
theories/Sc4Proofs3.v
theories/Sc4Proofs4.v
theories/Sc4Props.v
theories/Sc4Spec.v
theories/Sc5Model.v
theories/Sc5Proofs.v
theories/Sc5Proofs2.v
theories/Sc5Props.v
theories/Sc5Spec.v
theories/SivModel.v
theories/SivProofs.v
theories/SivProps.v
theories/SivSpec.v
theories/Sm2Model.v
theories/Sm2Proofs.v
theories/Sm2Proofs2.v
theories/Sm2Proofs3.v
theories/Sm2Props.v
theories/Sm2Spec.v
theories/Sm2Toy.v
theories/Small1Model.v
theories/Small1Props.v
theories/Small2Model.v
theories/Small2Proofs.v
theories/Small2Props.v
theories/Small2Spec.v
theories/SrModel.v
theories/SrProofs.v
theories/SrProofs2.v
theories/SrProps.v
theories/SrSpec.v
theories/StreamModel.v
theories/StreamProofs.v
theories/StreamProps.v
theories/StreamSpec.v
theories/ToolBytesModel.v
theories/ToolBytesProofs.v
theories/ToolBytesProps.v
theories/ToolBytesSpec.v
theories/ToyCurve.v
theories/UndoLib.v
theories/WordLib.v
theories/WordModel.v
theories/WrapModel.v
theories/WrapProofs.v
theories/WrapProps.v
theories/WrapSpec.v
theories/ZtailModel.v
theories/ZtailProofs.v
theories/ZtailSpec.v
