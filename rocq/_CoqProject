-Q theories Verif

theories/Model/Outcome.v
theories/Model/PNDArray.v
theories/Model/Num.v
theories/Model/NumInst.v
theories/Model/Bin.v
theories/Model/PSimple.v
theories/Model/FuncObj.v
theories/Model/Interpolator.v
theories/Model/Quad.v
theories/Model/Hexahedron.v
theories/Model/Mesh.v
theories/Model/PField.v
theories/Spec/Tensor.v
theories/Spec/NDHistory.v
theories/Spec/Grid.v
theories/Spec/Funcs.v
theories/Spec/Shape.v
theories/Spec/Fields.v
theories/Proofs/OutcomeP.v
theories/Proofs/PNDArrayP.v
theories/Proofs/BinP.v
theories/Proofs/BinRP.v
theories/Props/PNDArrayProps.v
theories/Proofs/BinLaterP.v
theories/Proofs/BinFloatP.v
theories/Proofs/BinEdgeP.v
theories/Proofs/BinExamples.v
theories/Props/BinProps.v
theories/Model/BinMax.v
theories/Spec/BinMax.v
theories/Proofs/BinMaxP.v
theories/Props/BinMaxProps.v
theories/Proofs/FuncObjP.v
theories/Proofs/ElemObjP.v
theories/Proofs/ElemEvalP.v
theories/Proofs/ShapeP.v
theories/Proofs/ShapeExamples.v
theories/Props/ShapeProps.v
theories/Props/FieldProps.v
theories/Proofs/MeshP.v
theories/Proofs/FieldP.v
theories/Proofs/MeshReadP.v
theories/Proofs/AxisP.v
theories/Proofs/MeshRP.v
theories/Proofs/RectP.v
theories/Proofs/RectFieldP.v
theories/Proofs/HexP.v
theories/Proofs/FieldSafeP.v
theories/Proofs/FieldExamples.v
theories/Proofs/Field3Examples.v
theories/Model/BasisSet.v
theories/Model/Series.v
theories/Model/Iface.v
theories/Model/Stream.v
theories/Model/Vtk.v
theories/Spec/Basis.v
theories/Spec/Series.v
theories/Proofs/BasisP.v
theories/Proofs/SeriesSumP.v
theories/Proofs/SeriesP.v
theories/Proofs/SeriesEvalP.v
theories/Proofs/SeriesOneP.v
theories/Proofs/SeriesRP.v
theories/Proofs/SeriesClientP.v
theories/Proofs/SeriesExamples.v
theories/Props/SeriesProps.v
theories/Spec/Vtk.v
theories/Proofs/StreamP.v
theories/Proofs/VtkP.v
theories/Proofs/VtkSpecP.v
theories/Proofs/RereadP.v
theories/Spec/Reread.v
theories/Proofs/RereadExamples.v
theories/Props/RereadProps.v
theories/Proofs/VtkLoopP.v
theories/Proofs/VtkExamples.v
theories/Props/VtkProps.v
theories/Model/SeriesIO.v
theories/Spec/SeriesIO.v
theories/Proofs/SeriesIOP.v
theories/Proofs/SeriesShortP.v
theories/Proofs/SeriesIOExamples.v
theories/Props/SeriesIOProps.v
theories/Model/Wrapper.v
theories/Spec/Ownership.v
theories/Proofs/WrapperP.v
theories/Props/WrapperProps.v
theories/Model/CApi.v
theories/Spec/Handles.v
theories/Proofs/CApiP.v
theories/Props/CApiProps.v
theories/Model/PFlex.v
theories/Spec/Flex.v
theories/Proofs/FlexP.v
theories/Props/FlexProps.v
theories/Model/Piecewise.v
theories/Spec/Piecewise.v
theories/Proofs/PiecewiseP.v
theories/Proofs/PrintedP.v
theories/Proofs/PiecewiseExamples.v
theories/Props/PiecewiseProps.v
theories/Model/Lw.v
theories/Spec/Lw.v
theories/Model/LwText.v
theories/Spec/LwText.v
theories/Proofs/LwP.v
theories/Proofs/LwGenP.v
theories/Proofs/LwRegexP.v
theories/Props/LwProps.v
theories/Proofs/LwTextP.v
theories/Proofs/LwLibP.v
theories/Props/LwTextProps.v
theories/Model/LwMain.v
theories/Spec/LwMain.v
theories/Proofs/LwMainP.v
theories/Props/LwMainProps.v
theories/Model/CExpr.v
theories/Model/Samples.v
theories/Spec/Poly.v
theories/Proofs/PolyP.v
theories/Proofs/SampleSetsP.v
theories/Proofs/SampleFuncsP.v
theories/Proofs/SamplePiecesP.v
theories/Proofs/BowlP.v
theories/Proofs/SampleTextsP.v
theories/Proofs/SampleExamples.v
theories/Props/SamplesProps.v
theories/Model/Life.v
theories/Spec/Life.v
theories/Spec/Malformed.v
theories/Proofs/LifeP.v
theories/Proofs/LifeFileP.v
theories/Proofs/MalformedP.v
theories/Proofs/NegativeP.v
theories/Proofs/ShortDataP.v
theories/Proofs/MalformedExamples.v
theories/Proofs/NegativeExamples.v
theories/Proofs/LooseP.v
theories/Proofs/LooseExamples.v
theories/Props/LifeProps.v
theories/Props/MalformedProps.v
theories/Proofs/LocalP.v
theories/Proofs/LocalExamples.v
theories/Props/LocalProps.v
theories/Model/CInterface.v
theories/Spec/CInterface.v
theories/Proofs/CInterfaceP.v
theories/Proofs/SampleSeriesP.v
theories/Proofs/CInterfaceExamples.v
theories/Props/CInterfaceProps.v
theories/Model/Python.v
theories/Spec/Python.v
theories/Proofs/PythonP.v
theories/Proofs/DigitsP.v
theories/Proofs/PythonExamples.v
theories/Props/PythonProps.v
theories/Model/FieldPtr.v
theories/Spec/FieldPtr.v
theories/Spec/Rounding.v
theories/Proofs/FieldPtrP.v
theories/Proofs/RoundP.v
theories/Proofs/FloatShapeP.v
theories/Proofs/FloatAxisP.v
theories/Proofs/FloatMeshP.v
theories/Proofs/SlopeP.v
theories/Proofs/FloatFieldP.v
theories/Proofs/FloatEvalP.v
theories/Proofs/FloatExamples.v
theories/Props/FieldPtrProps.v
theories/Props/RoundProps.v
theories/Spec/SeriesRounding.v
theories/Proofs/SumRoundP.v
theories/Proofs/SeriesRoundP.v
theories/Proofs/SeriesRoundExamples.v
theories/Props/SeriesRoundProps.v
theories/Spec/PolyRounding.v
theories/Proofs/PolyRoundP.v
theories/Proofs/SampleRoundP.v
theories/Proofs/SampleRoundExamples.v
theories/Proofs/SampleSeriesRoundP.v
theories/Proofs/SampleSeriesRoundExamples.v
theories/Props/SampleRoundProps.v
theories/Model/Parts.v
theories/Model/PartsClasses.v
theories/Spec/Parts.v
theories/Proofs/PartsP.v
theories/Proofs/PartsRepP.v
theories/Proofs/PartsOpsP.v
theories/Proofs/PartsRunP.v
theories/Proofs/PartsUseP.v
theories/Proofs/PartsExamples.v
theories/Props/PartsProps.v
theories/Model/SampleSet.v
theories/Spec/SampleSet.v
theories/Proofs/SampleSetP.v
theories/Proofs/SampleSetUseP.v
theories/Props/SampleSetProps.v
theories/Model/Decimal.v
theories/Spec/Decimal.v
theories/Proofs/DecimalP.v
theories/Proofs/DecimalTextP.v
theories/Proofs/DecimalRoundP.v
theories/Proofs/DecimalSeriesP.v
theories/Proofs/DecimalExamples.v
theories/Props/DecimalProps.v
theories/Spec/FileRounding.v
theories/Spec/FileRounding3.v
theories/Proofs/FileRoundP.v
theories/Proofs/FileGradP.v
theories/Proofs/FileRoundExamples.v
theories/Proofs/FileGradExamples.v
theories/Proofs/FileRound3P.v
theories/Proofs/FileGrad3P.v
theories/Proofs/FileRound3Examples.v
theories/Proofs/FileGrad3Examples.v
theories/Props/FileRoundProps.v
theories/Props/FileGradProps.v
theories/Props/FileRound3Props.v
theories/Props/FileGrad3Props.v
theories/Spec/Products.v
theories/Proofs/SeriesProductP.v
theories/Proofs/SeriesProductRP.v
theories/Props/SeriesProductProps.v
theories/Spec/Rounding3.v
theories/Proofs/FloatMesh3P.v
theories/Proofs/FloatField3P.v
theories/Proofs/FloatEval3P.v
theories/Proofs/FloatExamples3.v
theories/Props/Round3Props.v
theories/Model/LwCompile.v
theories/Spec/LwCompile.v
theories/Proofs/LwCompileP.v
theories/Props/LwCompileProps.v
theories/Proofs/SavedSeriesP.v
theories/Proofs/SavedSeriesExamples.v
theories/Props/SavedSeriesProps.v
theories/Proofs/MonomialSeriesRoundP.v
theories/Proofs/MonomialSeriesExamples.v
theories/Props/MonomialSeriesProps.v
theories/Proofs/ConditionsP.v
theories/Props/ConditionProps.v
theories/Proofs/SavedDerivativesP.v
theories/Proofs/SavedDerivativesExamples.v
theories/Props/SavedDerivativeProps.v
theories/Model/LwCommand.v
theories/Spec/LwCommand.v
theories/Proofs/LwCommandP.v
theories/Props/LwCommandProps.v
theories/Model/CoordText.v
theories/Spec/CoordText.v
theories/Proofs/CoordTextP.v
theories/Props/CoordTextProps.v
