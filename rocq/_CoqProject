-Q theories Verif
theories/Py.v
theories/ModelSamples.v
theories/ModelFilters.v
theories/ModelTransforms.v
theories/PyFacts.v
theories/Spec.v
theories/SpecTransforms.v
theories/SamplesFacts.v
theories/SamplesProps.v
theories/PropertiesSamples.v
theories/FiltersFacts.v
theories/AxisymFacts.v
theories/DirectionFacts.v
theories/DirFilterFacts.v
theories/FiltersProps.v
theories/PropertiesFilters.v
theories/TransformsFacts.v
theories/BackendFacts.v
theories/LoopFacts.v
theories/ReconFacts.v
theories/RoundFacts.v
theories/Demo.v
theories/TransformsProps.v
theories/PropertiesTransforms.v
theories/FrameProps.v
theories/PropertiesFrame.v
theories/KernelProps.v
theories/PropertiesKernel.v
theories/ModelFloat.v
theories/FloatProps.v
theories/PropertiesFloat.v
theories/SpecQuad.v
theories/QuadFacts.v
theories/QuadProps.v
theories/PropertiesQuad.v
theories/SpinProps.v
theories/PropertiesSpin.v
theories/SpecSteer.v
theories/SteerProps.v
theories/PropertiesSteer.v
theories/SpecSignal.v
theories/SignalFacts.v
theories/SignalProps.v
theories/PropertiesSignal.v
theories/SpecFp.v
theories/FloatFacts.v
theories/FloatFilterProps.v
theories/PropertiesFloatFilter.v
theories/FloatDefault.v
theories/FloatAcc.v
theories/FloatAccProps.v
theories/PropertiesFloatAcc.v
theories/ModelFloatDir.v
theories/SpecFpDir.v
theories/FloatDirFacts.v
theories/FloatDirProps.v
theories/PropertiesFloatDir.v
theories/FloatDirFilterProps.v
theories/PropertiesFloatDirFilter.v
theories/SpecGrad.v
theories/GradProps.v
theories/PropertiesGrad.v
theories/FloatSpinProps.v
theories/PropertiesFloatSpin.v
theories/ModelFloatTrans.v
theories/FloatTransFacts.v
theories/SpecFpTrans.v
theories/ModelFloatLoop.v
theories/FloatLoopFacts.v
theories/FloatTransErr.v
theories/FloatTransFilt.v
theories/FloatTransCore.v
theories/FloatTransRound.v
theories/FloatTransSum.v
theories/FloatTransTrip.v
theories/FloatTransClosed.v
theories/FloatTransProps.v
theories/PropertiesFloatTrans.v
theories/ModelFloatJax.v
theories/SpecFpJax.v
theories/FloatJaxFacts.v
theories/FloatJaxProps.v
theories/PropertiesFloatJax.v
theories/ModelFloatBack.v
theories/SpecFpBack.v
theories/FloatBackFacts.v
theories/FloatBackProps.v
theories/PropertiesFloatBack.v
theories/ModelFloatJaxFilt.v
theories/FloatJaxFiltProps.v
theories/PropertiesFloatJaxFilt.v
theories/FloatLoopProps.v
theories/PropertiesFloatLoop.v
theories/FloatLoopTransProps.v
theories/PropertiesFloatLoopTrans.v
theories/ModelFloatScat.v
theories/SpecFpScat.v
theories/FloatScatProps.v
theories/PropertiesFloatScat.v
theories/SpecStorage.v
theories/DilationProps.v
theories/PropertiesDilation.v
theories/FloatDilationProps.v
theories/PropertiesFloatDilation.v
theories/SpecApprox.v
theories/ApproxProps.v
theories/PropertiesApprox.v
theories/StorageProps.v
theories/PropertiesStorage.v
theories/SpecFpMany.v
theories/FloatManyProps.v
theories/PropertiesFloatMany.v
theories/FloatJaxManyProps.v
theories/PropertiesFloatJaxMany.v
theories/SpecThree.v
theories/FloatThreeProps.v
theories/PropertiesFloatThree.v
theories/FloatThreeTransProps.v
theories/PropertiesFloatThreeTrans.v
theories/FloatThreeLoopProps.v
theories/PropertiesFloatThreeLoop.v
theories/FloatThreeFlmProps.v
theories/PropertiesFloatThreeFlm.v
theories/FloatThreeDirProps.v
theories/PropertiesFloatThreeDir.v
theories/SpecFour.v
theories/FloatFourProps.v
theories/PropertiesFloatFour.v
theories/FloatFourDirProps.v
theories/PropertiesFloatFourDir.v
