-Q theories Verif
theories/Base.v
theories/TokData.v
theories/CmavoData.v
theories/TokModel.v
theories/ErasureSpec.v
theories/ErasureProofs.v
theories/Lex2Spec.v
theories/Lex2Proofs.v
theories/Lex2Proofs2.v
theories/ErasureProps.v
theories/Lex2Props.v
theories/Arr.v
theories/DfaModel.v
theories/NfaData.v
theories/DfaSpec.v
theories/DfaTabProofs.v
theories/DfaMinProofs.v
theories/DfaSubsetProofs.v
theories/DfaBuildProofs.v
theories/DfaReadProofs.v
theories/DfaTables.v
theories/DfaTablesProofs.v
theories/DfaProps.v
theories/CategModel.v
theories/CategSpec.v
theories/CategProofs.v
theories/CategProofs2.v
theories/CategProofs3.v
theories/CategProofs4.v
theories/CategProofs5.v
theories/CategProofs6.v
theories/CategProps.v
theories/AheadSpec.v
theories/AheadProofs.v
theories/AheadProofs2.v
theories/AheadProofs3.v
theories/AheadProofs4.v
theories/AheadProofs5.v
theories/AheadProps.v
theories/TreeModel.v
theories/ConnectModel.v
theories/ConnectSpec.v
theories/ConnectProofs.v
theories/ConnectProofs2.v
theories/ConnectProps.v
theories/ConvModel.v
theories/ConvSpec.v
theories/ConvProofs.v
theories/ConvProofs2.v
theories/ConvProps.v
theories/TermsModel.v
theories/TermsSpec.v
theories/TermsProofs.v
theories/TermsProofs2.v
theories/TermsProps.v
theories/TreeOutModel.v
theories/TreeOutSpec.v
theories/TreeOutProofs.v
theories/TreeOutProofs2.v
theories/TidyProofs.v
theories/TreeOutProps.v
theories/QuoteSpec.v
theories/QuoteProofs.v
theories/QuotePipe.v
theories/QuoteProps.v
theories/DictModel.v
theories/DictSpec.v
theories/DictProofs.v
theories/DictProofs2.v
theories/DictProofs3.v
theories/DictProps.v
theories/LujvoData.v
theories/LujvoModel.v
theories/LujvoSpec.v
theories/LujvoProofs.v
theories/LujvoProofs2.v
theories/LujvoProofs3.v
theories/LujvoProofs4.v
theories/LujvoProofs5.v
theories/LujvoProofs6.v
theories/LujvoProofs7.v
theories/LujvoProofs8.v
theories/LujvoProofs9.v
theories/LujvoProofs10.v
theories/LujvoProps.v
theories/MorfModel.v
theories/MorfSpec.v
theories/MorfProofs.v
theories/MorfProofs2.v
theories/MorfProofs3.v
theories/MorfProofs4.v
theories/MorfProofs5.v
theories/MorfProofs6.v
theories/MorfProofs7.v
theories/MorfProofs8.v
theories/MorfProofs9.v
theories/MorfProofs10.v
theories/HyphProofs.v
theories/HyphProofs2.v
theories/MorfProps.v
theories/LexModel.v
theories/LexSpec.v
theories/LexProofs.v
theories/LexProofs2.v
theories/LexProofs3.v
theories/LexProofs4.v
theories/LexProofs5.v
theories/LexProofs6.v
theories/LexProofs7.v
theories/LexProofs8.v
theories/LexProps.v
theories/LayoutModel.v
theories/LayoutSpec.v
theories/LayoutProofs.v
theories/LayoutProofs2.v
theories/LayoutProofs3.v
theories/LayoutProofs4.v
theories/LayoutProofs5.v
theories/LayoutProps.v
theories/MemModel.v
theories/MemSpec.v
theories/MemProofs.v
theories/MemProps.v
theories/StreamModel.v
theories/StreamSpec.v
theories/StreamProofs.v
theories/StreamProps.v
theories/MainModel.v
theories/MainSpec.v
theories/MainProofs.v
theories/MainProofs2.v
theories/MainProps.v
theories/ElideModel.v
theories/ElideSpec.v
theories/ElideProofs.v
theories/ElideProofs2.v
theories/ElideProofs3.v
theories/ElideProofs4.v
theories/ElideProofs5.v
theories/ElideProofs6.v
theories/ElideProps.v
theories/TransModel.v
theories/TransSpec.v
theories/TransProofs.v
theories/TransProofs2.v
theories/TransProofs3.v
theories/TransProofs4.v
theories/TransProofs5.v
theories/TransProofs6.v
theories/TransProofs7.v
theories/TransProofs8.v
theories/TransProps.v
theories/GrammarData.v
theories/GramModel.v
theories/GramSpec.v
theories/GramProofs.v
theories/PassModel.v
theories/PassSpec.v
theories/PassProofs.v
theories/PassProofs2.v
theories/PassProofs3.v
theories/PassProps.v
theories/ParseProps.v
theories/OutModel.v
theories/OutSpec.v
theories/OutProofs.v
theories/OutProofs2.v
theories/OutProofs3.v
theories/OutProofs4.v
theories/OutProofs5.v
theories/OutProofs6.v
theories/OutProofs7.v
theories/OutProofs8.v
theories/OutProofs9.v
theories/OutProps.v
theories/DrvModel.v
theories/DrvSpec.v
theories/DrvProofs.v
theories/DrvProofs2.v
theories/DrvProofs3.v
theories/DrvProps.v
theories/WalkModel.v
theories/WalkSpec.v
theories/WalkProofs.v
theories/WalkProofs2.v
theories/WalkProofs3.v
theories/WalkProofs4.v
theories/WalkProofs5.v
theories/WalkProofs6.v
theories/WalkProofs7.v
theories/WalkProofs8.v
theories/WalkProps.v
theories/LabelSpec.v
theories/LabelProofs.v
theories/LabelProps.v
theories/WalkTotal.v
theories/WalkTotal2.v
theories/RoomSpec.v
theories/WalkTotal3.v
theories/WalkTotal4.v
theories/RoomProofs.v
theories/RoomProps.v
theories/CmModel.v
theories/CmSpec.v
theories/CmProofs.v
theories/CmProofs2.v
theories/CmProofs3.v
theories/CmProofs4.v
theories/CmProofs5.v
theories/CmProofs6.v
theories/CmProofs7.v
theories/CmProofs8.v
theories/CmOutSpec.v
theories/CmProofs9.v
theories/CmProps.v
theories/BlkModel.v
theories/BlkSpec.v
theories/BlkProofs.v
theories/BlkProofs2.v
theories/BlkProofs3.v
theories/BlkProps.v
theories/TraceModel.v
theories/TraceSpec.v
theories/TraceProofs.v
theories/TraceProofs2.v
theories/TraceProofs3.v
theories/TraceProps.v
theories/PropModel.v
theories/PropSpec.v
theories/PropProofs.v
theories/PropProps.v
theories/MtModel.v
theories/MtSpec.v
theories/MtProofs.v
theories/MtProps.v
theories/FlexModel.v
theories/FlexSpec.v
theories/FlexProofs.v
theories/FlexProofs2.v
theories/FlexProofs3.v
theories/FlexProofs4.v
theories/FlexProps.v
theories/UncomModel.v
theories/UncomSpec.v
theories/UncomProofs.v
theories/UncomProps.v
theories/PrecModel.v
theories/PrecSpec.v
theories/PrecProofs.v
theories/PrecProofs2.v
theories/PrecProps.v
theories/TabtextModel.v
theories/TabtextRows.v
theories/TabtextSpec.v
theories/TabtextProofs.v
theories/TabtextProofs2.v
theories/TabtextProofs3.v
theories/TabtextProps.v
theories/RtgData.v
theories/RtgModel.v
theories/RtgSpec.v
theories/RtgProofs.v
theories/RtgProps.v
