-Q theories Verif
theories/AssignModel.v
theories/AssignProof.v
theories/AssignProps.v
theories/AssignSpec.v
theories/BorderModel.v
theories/BorderProof.v
theories/BorderProof2.v
theories/BorderProof3.v
theories/BorderProof4.v
theories/BorderProof5.v
theories/BorderProps.v
theories/BorderSpec.v
theories/CleanModel.v
theories/CleanProof.v
theories/CleanProof2.v
theories/CleanProof3.v
theories/CleanProps.v
theories/CleanSpec.v
theories/ColProof.v
theories/ColProof2.v
theories/ColProof3.v
theories/ColProps.v
theories/ColSpec.v
theories/ColorModel.v
theories/ColorProof.v
theories/ColorProps.v
theories/ColorSpec.v
theories/ConverterFindings.v
theories/ConverterModel.v
theories/ConverterProof.v
theories/ConverterProps.v
theories/ConverterSpec.v
theories/CutModel.v
theories/CutProof.v
theories/CutProof2.v
theories/CutProof3.v
theories/CutProof4.v
theories/CutProps.v
theories/CutSpec.v
theories/DocxModel.v
theories/DocxProof.v
theories/DocxProps.v
theories/DocxSpec.v
theories/DrawModel.v
theories/DrawProof.v
theories/DrawProps.v
theories/DrawSpec.v
theories/ExtractModel.v
theories/ExtractProps.v
theories/ExtractSpec.v
theories/FailModel.v
theories/FailProof.v
theories/FailProps.v
theories/FailSpec.v
theories/FillProof.v
theories/FillProps.v
theories/FillSpec.v
theories/FitProof.v
theories/FitProps.v
theories/FitSpec.v
theories/FlowModel.v
theories/FlowProof.v
theories/FlowProof2.v
theories/FlowProof3.v
theories/FlowProps.v
theories/FlowSpec.v
theories/FmtProof.v
theories/FmtProof2.v
theories/FmtProof3.v
theories/FmtProof4.v
theories/FmtProof5.v
theories/FmtProof6.v
theories/FmtProof7.v
theories/FmtProps.v
theories/FmtSpec.v
theories/FontModel.v
theories/FontProof.v
theories/FontProps.v
theories/GeomModel.v
theories/GeomProof.v
theories/GeomProps.v
theories/GeomSpec.v
theories/GraphModel.v
theories/GraphProof.v
theories/GraphProps.v
theories/GraphSpec.v
theories/GridProof.v
theories/GridProof2.v
theories/GridProof3.v
theories/GridProof4.v
theories/GridProof5.v
theories/GridProof6.v
theories/GridProof7.v
theories/GridProof8.v
theories/GridProps.v
theories/GridSpec.v
theories/HeadProof.v
theories/HeadProof2.v
theories/HeadProps.v
theories/HeadSpec.v
theories/HideModel.v
theories/HideProps.v
theories/HideSpec.v
theories/ImageModel.v
theories/ImageProof.v
theories/InterModel.v
theories/InterProof.v
theories/InterProps.v
theories/InterSpec.v
theories/LayoutFormat.v
theories/LayoutModel.v
theories/LayoutProof.v
theories/LayoutProof2.v
theories/LayoutProof3.v
theories/LayoutProof4.v
theories/LayoutProof5.v
theories/LayoutProps.v
theories/LayoutSpec.v
theories/LookProof.v
theories/LookProps.v
theories/LookSpec.v
theories/MaskModel.v
theories/MaskProps.v
theories/MaskSpec.v
theories/MixModel.v
theories/MixProof.v
theories/MixProps.v
theories/MixSpec.v
theories/MpModel.v
theories/MpProof.v
theories/PageModel.v
theories/PageProof.v
theories/PageProps.v
theories/PageSpec.v
theories/ParaModel.v
theories/ParaProof.v
theories/ParaProps.v
theories/ParaSpec.v
theories/PathModel.v
theories/PathProof.v
theories/PathProps.v
theories/PathSpec.v
theories/PicProps.v
theories/PixModel.v
theories/PixProps.v
theories/PixSpec.v
theories/PlaceProof.v
theories/PlaceProof2.v
theories/PlaceProof3.v
theories/PlaceProof4.v
theories/PlaceProps.v
theories/PlaceSpec.v
theories/PyBase.v
theories/PyBaseProof.v
theories/PyNum.v
theories/PySort.v
theories/RawModel.v
theories/RawProof.v
theories/RawProps.v
theories/RawSpec.v
theories/ReadModel.v
theories/ReadProof.v
theories/ReadProps.v
theories/ReadSpec.v
theories/Rect.v
theories/ReparseModel.v
theories/ReparseProps.v
theories/RotModel.v
theories/RotProof.v
theories/RotProps.v
theories/RotSpec.v
theories/RunModel.v
theories/RunProof.v
theories/RunProps.v
theories/RunSpec.v
theories/SetProof.v
theories/SetProof2.v
theories/SetProof3.v
theories/SetProof4.v
theories/SetProps.v
theories/SetSpec.v
theories/ShapeModel.v
theories/ShapeProof.v
theories/ShapeProps.v
theories/ShapeSpec.v
theories/SpacingModel.v
theories/SpacingProof.v
theories/SpacingProps.v
theories/SpacingSpec.v
theories/StoreModel.v
theories/StoreProof.v
theories/StoreProof2.v
theories/StoreProof3.v
theories/StoreProps.v
theories/StoreSpec.v
theories/TabProof.v
theories/TabProof10.v
theories/TabProof11.v
theories/TabProof2.v
theories/TabProof3.v
theories/TabProof4.v
theories/TabProof5.v
theories/TabProof6.v
theories/TabProof7.v
theories/TabProof8.v
theories/TabProof9.v
theories/TabProps.v
theories/TabSpec.v
theories/TableModel.v
theories/TableProof.v
theories/TableProps.v
theories/TableSpec.v
theories/TextModel.v
theories/TextProof.v
theories/TextProps.v
theories/TextSpec.v
theories/TreeModel.v
theories/TreeProof.v
theories/TreeProof2.v
theories/TreeProof3.v
theories/TreeProof4.v
theories/TreeProof5.v
theories/TreeProof6.v
theories/TreeProps.v
theories/TreeSpec.v
theories/WholeModel.v
theories/WholeProof.v
theories/WholeProof2.v
theories/WholeProof3.v
theories/WholeProof4.v
theories/WholeProof5.v
theories/WholeProof6.v
theories/WholeProof7.v
theories/WholeProof8.v
theories/WholeProps.v
theories/WholeSpec.v
theories/WordModel.v
theories/WordProof.v
theories/WordProof2.v
theories/WordProof3.v
theories/WordProps.v
theories/WordSpec.v
