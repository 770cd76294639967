-Q theories Verif
theories/Base.v
theories/Lib.v
theories/VersionDb.v
theories/ModelGF.v
theories/ModelRS.v
theories/ModelDecode.v
theories/Validate.v
theories/RSTransport.v
theories/GFProofs.v
theories/GFField.v
theories/RSProofs.v
theories/SpecQR.v
theories/RSBytes.v
theories/RSEncode.v
theories/SpecPayload.v
theories/CountProofs.v
theories/StreamProofs.v
theories/PayloadProofs.v
theories/MessageProofs.v
theories/FormatProofs.v
theories/LayoutProofs.v
theories/EccDb.v
theories/EccProofs.v
theories/EccStream.v
theories/V21Proofs.v
theories/EndToEnd.v
theories/EncodeProofs.v
theories/GridProofs.v
theories/Refuted.v
theories/RawProofs.v
theories/SymbolProofs.v
theories/RSFacts.v
theories/RSNearest.v
theories/RSBeyond.v
theories/ModelImage.v
theories/ModelGeometry.v
theories/ModelDetect.v
theories/ModelIdentify.v
theories/SpecImage.v
theories/FloodProofs.v
theories/RegionProofs.v
theories/PrepareProofs.v
theories/SpecThreshold.v
theories/ThresholdProofs.v
theories/SpecScan.v
theories/ScanProofs.v
theories/DetectProofs.v
theories/CornerProofs.v
theories/SearchProofs.v
theories/SpecFinder.v
theories/FinderProofs.v
theories/FloatProofs.v
theories/CenterProofs.v
theories/HistoryProofs.v
theories/ImageFacts.v
theories/FinderFacts.v
theories/PropSymbol.v
theories/PropGrid.v
theories/PropPayload.v
theories/PropRS.v
theories/PropImage.v
theories/PropDetect.v
theories/SpecGeometry.v
theories/GeometryProofs.v
theories/ExactProofs.v
theories/PropGeometry.v
theories/SpecIdentify.v
theories/IdentifyProofs.v
theories/NeighborProofs.v
theories/SpiralProofs.v
theories/SampleProofs.v
theories/SpecLocate.v
theories/LocateProofs.v
theories/PropIdentify.v
theories/SpecPicture.v
theories/ApproxProofs.v
theories/FrameProofs.v
theories/FitnessProofs.v
theories/JiggleProofs.v
theories/JiggleTotal.v
theories/SquareProofs.v
theories/PatternProofs.v
theories/TurnProofs.v
theories/GroupProofs.v
theories/OrientProofs.v
theories/TimingProofs.v
theories/AlignProofs.v
theories/WholeProofs.v
theories/DrawProofs.v
theories/RenderProofs.v
theories/PictureProofs.v
theories/ExtProofs.v
theories/PropPicture.v
theories/LitProofs.v
theories/PropThreshold.v
theories/DotProofs.v
theories/DottedProofs.v
theories/PropDots.v
theories/PaperProofs.v
theories/PropPaper.v
theories/LargeProofs.v
theories/PropLarge.v
theories/TotalProofs.v
theories/PropTotal.v
theories/AgainProofs.v
theories/PropAgain.v
theories/SpecChanges.v
theories/ChangesProofs.v
theories/PropChanges.v
theories/SpecReading.v
theories/ReadingProofs.v
theories/ModelOutput.v
theories/ModelBuffer.v
theories/OutputProofs.v
theories/PropReading.v
theories/SpecSheet.v
theories/SheetSearch.v
theories/SheetGroup.v
theories/SheetProofs.v
theories/SheetRender.v
theories/SheetOrder.v
theories/SheetScan.v
theories/SheetLost.v
theories/SpecTable.v
theories/SpecBuffer.v
theories/TableProofs.v
theories/BufferProofs.v
theories/AnyBuffer.v
theories/ModelCalls.v
theories/SpecCalls.v
theories/CallProofs.v
theories/ModelLook.v
theories/SpecLook.v
theories/LookProofs.v
theories/PropSheet.v
theories/SpecFit.v
theories/FitProofs.v
theories/AffineFit.v
theories/PropFit.v
theories/SpecClimb.v
theories/ClimbProofs.v
theories/SpecCount.v
theories/RoomProofs.v
theories/PropCount.v
theories/SpecHold.v
theories/HoldProofs.v
theories/PropHold.v
theories/PropLost.v
theories/PropTable.v
theories/PropBuffer.v
theories/PropCalls.v
theories/PropLook.v
theories/SpecPaperSheet.v
theories/PaperSheetProofs.v
theories/PropPaperSheet.v
theories/SpecPadding.v
theories/PaddingProofs.v
theories/PropPadding.v
theories/SpecText.v
theories/TextProofs.v
theories/PropText.v
theories/SpecNeeded.v
theories/NeededProofs.v
theories/PropNeeded.v
theories/SpecMirror.v
theories/MirrorProofs.v
theories/PropMirror.v
theories/ShownProofs.v
theories/PropShown.v
