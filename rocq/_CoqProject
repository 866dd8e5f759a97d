-Q theories Verif
theories/CMem.v
theories/Graph.v
theories/GraphSpec.v
theories/GraphProofs.v
theories/GraphProofs2.v
theories/GraphProofs3.v
theories/GraphProofs4.v
theories/GraphProofs5.v
theories/PropertiesGraph.v
theories/Tensor.v
theories/Num.v
theories/Movement.v
theories/MovementProofs.v
theories/Linear.v
theories/LinearProofs.v
theories/NumInst.v
theories/RealInst.v
theories/PropertiesMovement.v
theories/PropertiesLinear.v
theories/Padding.v
theories/Conv.v
theories/ConvProofs.v
theories/IndirectProofs.v
theories/ConvHWC.v
theories/ConvHWCProofs.v
theories/ConvHWCProofs2.v
theories/WinogradProofs.v
theories/PropertiesConv.v
theories/PropertiesConvHWC.v
theories/Activation.v
theories/PropertiesActivation.v
theories/Broadcast.v
theories/BroadcastProofs.v
theories/PropertiesBroadcast.v
theories/Pooling.v
theories/PoolingProofs.v
theories/PoolingHWCProofs.v
theories/PropertiesPooling.v
theories/Pad.v
theories/PropertiesPad.v
theories/Reduce.v
theories/ReduceProofs.v
theories/PropertiesReduce.v
theories/Resize.v
theories/ResizeProofs.v
theories/PropertiesResize.v
theories/Decimal.v
theories/DecimalProofs.v
theories/PropertiesDecimal.v
theories/Hooks.v
theories/Linking.v
theories/DoublePrecision.v
theories/PropertiesHooks.v
theories/PropertiesLinking.v
theories/PropertiesDouble.v
theories/Typed.v
theories/PropertiesTyped.v
theories/FloatResize.v
theories/PropertiesFloatResize.v
theories/LayerKinds.v
theories/LayerKindsProofs.v
theories/Net.v
theories/NetProofs.v
theories/ModelProofs.v
theories/PropertiesNet.v
theories/Driver.v
theories/DriverProofs.v
theories/PropertiesDriver.v
theories/Versioning.v
theories/PropertiesVersioning.v
theories/Quant.v
theories/PropertiesQuant.v
theories/Params.v
theories/PropertiesParams.v
theories/Nnet.v
theories/NnetProofs.v
theories/PropertiesNnet.v
theories/Import.v
theories/ImportProofs.v
theories/ImportSpec.v
theories/ImportOnnxProofs.v
theories/ImportOtherProofs.v
theories/PropertiesImport.v
theories/Pattern.v
theories/FuseProofs.v
theories/PatternProofs.v
theories/PatternProofs2.v
theories/FuseValues.v
theories/FusionSafe.v
theories/PatternProofs3.v
theories/PatternTerm.v
theories/GraphProofs6.v
theories/PatternProofs4.v
theories/PropertiesPattern.v
theories/Bounds.v
theories/BoundsSpec.v
theories/BoundsProofs.v
theories/PropertiesBounds.v
theories/OnnxSpec.v
theories/OnnxOps.v
theories/OnnxOpsProofs.v
theories/PropertiesOnnxOps.v
theories/OnnxReduceProofs.v
theories/PropertiesOnnxReduce.v
theories/PropertiesOnnxElementwise.v
theories/OnnxWindowSpec.v
theories/OnnxWindow.v
theories/PropertiesOnnxWindow.v
theories/OnnxLinearSpec.v
theories/OnnxLinear.v
theories/PropertiesOnnxLinear.v
theories/OnnxMiscSpec.v
theories/OnnxMisc.v
theories/PropertiesOnnxPad.v
theories/PropertiesOnnxActivation.v
theories/PropertiesOnnxBypass.v
theories/OnnxResize.v
theories/ResizeFloat.v
theories/PropertiesOnnxResize.v
theories/ExportSpec.v
theories/Export.v
theories/ExportNames.v
theories/PropertiesExport.v
theories/ExportOps.v
theories/ExportOps2.v
theories/ExportDet.v
theories/ExportRun.v
theories/ExportMeaning.v
theories/PropertiesExportMeaning.v
theories/KerasSpec.v
theories/Keras.v
theories/KerasProofs.v
theories/KerasOps.v
theories/KerasOps2.v
theories/KerasOps3.v
theories/KerasModel.v
theories/KerasRun.v
theories/PropertiesKeras.v
theories/PropertiesKerasRefuted.v
theories/HwcNet.v
theories/HwcLemmas.v
theories/HwcProofs.v
theories/PropertiesHwc.v
theories/TorchSpec.v
theories/Torch.v
theories/TorchOps.v
theories/TorchOps2.v
theories/TorchModel.v
theories/TorchRun.v
theories/PropertiesTorch.v
theories/PropertiesTorchRefuted.v
theories/OnnxModelSpec.v
theories/OnnxModel.v
theories/OnnxModelOps.v
theories/OnnxModelOps2.v
theories/OnnxModelOps3.v
theories/OnnxModelOps4.v
theories/OnnxModelOps5.v
theories/OnnxModelOps6.v
theories/OnnxModelOps7.v
theories/OnnxModelNode.v
theories/ImportConstants.v
theories/ImportChains.v
theories/OnnxModelNet.v
theories/OnnxModelNames.v
theories/PropertiesOnnxModel.v
theories/Variants.v
theories/VariantsProofs.v
theories/PropertiesVariants.v
theories/HexLit.v
theories/HexLitProofs.v
theories/PropertiesHexLit.v
theories/Compare.v
theories/CompareProofs.v
theories/PropertiesCompare.v
theories/Pipeline.v
theories/PropertiesPipeline.v
theories/PropertiesPipelineOnnx.v
theories/Debug.v
theories/DebugProofs.v
theories/DebugRun.v
theories/PropertiesDebug.v
theories/Rounding.v
theories/RoundingProofs.v
theories/RoundingLayers.v
theories/PropertiesRounding.v
theories/FloatFormats.v
theories/PropertiesFloat.v
theories/Cli.v
theories/PropertiesCli.v
theories/RoundTrip.v
theories/PropertiesRoundTrip.v
theories/JsonWriter.v
theories/PropertiesJsonWriter.v
