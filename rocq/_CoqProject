-Q theories Verif

theories/CppModel.v
theories/CppProofs.v
theories/CardModel.v
theories/CardSpec.v
theories/CardProofs.v
theories/CardSlash.v
theories/CardProps.v
theories/StreamModel.v
theories/HeaderModel.v
theories/HeaderSpec.v
theories/HeaderProofs.v
theories/HeaderLookup.v
theories/HeaderProps.v
theories/StreamSpec.v
theories/StreamProofs.v
theories/StreamProps.v
theories/ConvModel.v
theories/ConvSpec.v
theories/ConvProofs.v
theories/ConvProps.v
theories/ImageModel.v
theories/ImageSpec.v
theories/ImageProofs.v
theories/StatModel.v
theories/StatProofs.v
theories/ImageProps.v
theories/TableModel.v
theories/TableSpec.v
theories/TableProofs.v
theories/TableCells.v
theories/TableTrim.v
theories/TableAgain.v
theories/TableProps.v
theories/ViewModel.v
theories/ViewSpec.v
theories/ViewProofs.v
theories/ViewProps.v
theories/ReaderModel.v
theories/ReaderSpec.v
theories/ReaderProofs.v
theories/ReaderRewrite.v
theories/ReaderMore.v
theories/ReaderImage.v
theories/ReaderProps.v
theories/CutSpec.v
theories/CutProofs.v
theories/CutProps.v
theories/StopSpec.v
theories/StopProofs.v
theories/StopProps.v
theories/AccessModel.v
theories/AccessProofs.v
theories/AccessProps.v
theories/FaultModel.v
theories/FaultProofs.v
theories/FaultProps.v
theories/TextModel.v
theories/TextSpec.v
theories/TextRound.v
theories/TextScan.v
theories/TextFloat.v
theories/TextProofs.v
theories/TextLaws.v
theories/TextRead.v
theories/TextCard.v
theories/TextProps.v
theories/TimeModel.v
theories/TimeSpec.v
theories/TimeProofs.v
theories/CalendarProofs.v
theories/TimeFloat.v
theories/TimeProps.v
theories/CoordModel.v
theories/CoordSpec.v
theories/CoordProofs.v
theories/CoordArith.v
theories/CoordRound.v
theories/CoordProps.v
theories/UtilModel.v
theories/UtilSpec.v
theories/UtilProofs.v
theories/UtilProps.v
theories/DiffModel.v
theories/DiffSpec.v
theories/DiffProofs.v
theories/DiffProps.v
theories/FrameModel.v
theories/FrameSpec.v
theories/FrameProofs.v
theories/FrameProps.v
theories/DoubleModel.v
theories/DoubleSpec.v
theories/DoubleProofs.v
theories/DoubleText.v
theories/DoubleUnits.v
theories/DoublePrint.v
theories/DoubleProps.v
theories/VectorModel.v
theories/VectorSpec.v
theories/VectorProofs.v
theories/VectorArith.v
theories/VectorProducts.v
theories/VectorLength.v
theories/VectorUnit.v
theories/VectorProps.v
theories/PixelModel.v
theories/PixelSpec.v
theories/PixelProofs.v
theories/PixelSums.v
theories/PixelStats.v
theories/PixelImage.v
theories/PixelOrder.v
theories/PixelProps.v
theories/SkyModel.v
theories/SkySpec.v
theories/SkyAngles.v
theories/SkyProofs.v
theories/SkyConvert.v
theories/SkySeparation.v
theories/SkyTransform.v
theories/SkyLibrary.v
theories/SkyProps.v
theories/EclipticModel.v
theories/EclipticSpec.v
theories/EclipticProofs.v
theories/EclipticProps.v
theories/SkyArithModel.v
theories/SkyArithSpec.v
theories/SkyArithProofs.v
theories/SkyArithProps.v
theories/SkyDiffModel.v
theories/SkyDiffSpec.v
theories/SkyDiffProofs.v
theories/SkyDiffProps.v
theories/RefillModel.v
theories/RefillSpec.v
theories/RefillProofs.v
theories/RefillProps.v
theories/ExnModel.v
theories/ExnSpec.v
theories/ExnProofs.v
theories/ExnProps.v
theories/WholeSpec.v
theories/WholeProofs.v
theories/WholeProps.v
theories/ValueSpec.v
theories/ValueProofs.v
theories/ValueProps.v
theories/CopySpec.v
theories/CopyProofs.v
theories/CopyProps.v
theories/NeedSpec.v
theories/NeedProofs.v
theories/NeedProps.v
theories/PartSpec.v
theories/PartProofs.v
theories/PartProps.v
theories/LifeSpec.v
theories/LifeProofs.v
theories/LifeProps.v
theories/BoundSpec.v
theories/BoundProofs.v
theories/BoundProps.v
theories/StarModel.v
theories/StarSpec.v
theories/StarProofs.v
theories/StarDouble.v
theories/StarProps.v
theories/RigidSpec.v
theories/RigidProofs.v
theories/RigidDouble.v
theories/RigidProps.v
theories/SheetModel.v
theories/SheetSpec.v
theories/SheetProofs.v
theories/SheetOrder.v
theories/SheetProps.v
theories/ClockSpec.v
theories/ClockProofs.v
theories/ClockProps.v
theories/RefuseSpec.v
theories/RefuseProofs.v
theories/RefuseProps.v
theories/TypedProps.v
