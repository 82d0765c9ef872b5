-Q theories Verif
theories/MachineInt.v
theories/Ratio.v
theories/RatioFacts.v
theories/F64.v
theories/DecimalFacts.v
theories/Magnitude.v
theories/MagnitudeFacts.v
theories/SMap.v
theories/Exponent.v
theories/ExponentFacts.v
theories/Expression.v
theories/DimensionMath.v
theories/DimensionMathFacts.v
theories/Types.v
theories/PrefixSpec.v
theories/ExpansionSpec.v
theories/Snake.v
theories/Resolve.v
theories/ResolveLoop.v
theories/ResolveChecks.v
theories/SystemSpec.v
theories/ResolveFacts.v
theories/ResolveAccept.v
theories/ResolveEquations.v
theories/ResolveReports.v
theories/Expansion.v
theories/Setting.v
theories/SystemFacts.v
theories/NumericFacts.v
theories/ExampleSystems.v
theories/PropertiesSystem.v
theories/PropertiesNumeric.v
theories/Parse.v
theories/Grammar.v
theories/ParseFacts.v
theories/ParsedSystems.v
theories/PropertiesParse.v
theories/Sources.v
theories/SiTree.v
theories/Accuracy.v
theories/Platform.v
theories/PropertiesSources.v
theories/FastCheck.v
theories/FastFactor.v
theories/PropertiesSI.v
theories/CodegenDimension.v
theories/CodegenDimensionFacts.v
theories/CodegenLiteral.v
theories/SnakeFacts.v
theories/PropertiesDimension.v
theories/PropertiesExponents.v
theories/PropertiesReports.v
theories/Storage.v
theories/Operators.v
theories/OperatorSpec.v
theories/OperatorFacts.v
theories/PropertiesOperators.v
theories/FloatFacts.v
theories/Raw.v
theories/UnitOps.v
theories/PropertiesUnits.v
theories/FloatOps.v
theories/FloatMethods.v
theories/FloatAccuracy.v
theories/PropertiesMethods.v
theories/Vector.v
theories/VectorFacts.v
theories/PropertiesVector.v
theories/Text.v
theories/TextFacts.v
theories/Debug.v
theories/Serde.v
theories/TextSystem.v
theories/PropertiesDebug.v
theories/NumberFormat.v
theories/SerdeFacts.v
theories/PropertiesSerde.v
theories/RoundTripFacts.v
theories/PropertiesRoundTrip.v
theories/PropertiesNumbers.v
theories/Interop.v
theories/PropertiesInterop.v
theories/Programs.v
theories/Equivariance.v
theories/EquivarianceFacts.v
theories/PropertiesEquivariance.v
theories/NamesSpec.v
theories/CodegenModules.v
theories/ModulesFacts.v
theories/PropertiesModules.v
theories/RoundingSpec.v
theories/RoundingFacts.v
theories/AccuracyFacts.v
theories/PropertiesAccuracy.v
theories/ConversionFacts.v
theories/PropertiesConversion.v
theories/ExactFacts.v
theories/PropertiesExact.v
theories/ExtensionFacts.v
theories/RemovalFacts.v
theories/PropertiesExtension.v
theories/PropertiesRemoval.v
theories/Simulation.v
theories/SupersetFacts.v
theories/PropertiesSuperset.v
theories/Features.v
theories/PropertiesFeatures.v
theories/FloatPrograms.v
theories/TrackSpec.v
theories/TrackFacts.v
theories/TrackVector.v
theories/TrackRun.v
theories/PropertiesPrograms.v
theories/PropertiesVectorPrograms.v
theories/PropertiesSiPrograms.v
theories/SafetySpec.v
theories/SafetyFacts.v
theories/PropertiesSafety.v
theories/IndependenceFacts.v
theories/PropertiesIndependence.v
theories/OriginSpec.v
theories/OriginFacts.v
theories/PropertiesOrigin.v
theories/LocalSpec.v
theories/LocalFacts.v
theories/PropertiesLocal.v
theories/AnnotationFacts.v
theories/PropertiesAnnotation.v
theories/PropertiesExchange.v
theories/PropertiesReading.v
theories/ReportFacts.v
theories/PropertiesExactness.v
theories/PropertiesLanguage.v
theories/PropertiesEvaluation.v
theories/PropertiesSupersetExact.v
theories/Messages.v
theories/MessageFacts.v
theories/PropertiesMessages.v
theories/MessageTruthFacts.v
theories/PropertiesMessageTruth.v
theories/Inference.v
theories/InferenceFacts.v
theories/PropertiesInference.v
theories/Conformance.v
theories/OverflowSpec.v
theories/OverflowFacts.v
theories/OverflowRational.v
theories/PropertiesOverflow.v
theories/OrderSpec.v
theories/OrderFacts.v
theories/PropertiesOrder.v
theories/RenameSpec.v
theories/RenameFacts.v
theories/RenameAccept.v
theories/RenameFile.v
theories/PropertiesRename.v
theories/PropertiesRenameText.v
theories/PropertiesRenameData.v
theories/PropertiesGrowth.v
theories/PropertiesShrink.v
theories/PropertiesHistory.v
theories/PropertiesGrowthText.v
