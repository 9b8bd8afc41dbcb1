-Q theories Verif
theories/AgreeFacts.v
theories/Base.v
theories/BaseFacts.v
theories/Builder.v
theories/BuilderFacts.v
theories/BuilderSpec.v
theories/Checkify.v
theories/CheckifySpec.v
theories/CompareFacts.v
theories/CompareSpec.v
theories/Controller.v
theories/ControllerFacts.v
theories/Dataclass.v
theories/DataclassFacts.v
theories/DataclassSpec.v
theories/DepFacts.v
theories/Dual.v
theories/Dual2.v
theories/DualCases.v
theories/DualFacts.v
theories/DualFacts2.v
theories/DualFacts3.v
theories/DualFacts4.v
theories/DualFacts5.v
theories/DualSpec.v
theories/EditFacts.v
theories/EditSpec.v
theories/Editor.v
theories/EditorFacts.v
theories/EditorSpec.v
theories/ElementFacts.v
theories/ElementSpec.v
theories/ExactFacts.v
theories/ExactFacts2.v
theories/FloatFacts.v
theories/FloatFacts2.v
theories/FloatFacts3.v
theories/FloatFacts4.v
theories/FloatFacts5.v
theories/FloatFacts6.v
theories/FloatNum.v
theories/FloatSpec.v
theories/GravesFacts.v
theories/Heap.v
theories/HeapFacts.v
theories/HeapFacts2.v
theories/HeapFacts3.v
theories/HeapFacts4.v
theories/HeapSpec.v
theories/History.v
theories/HistoryFacts.v
theories/IeeeLoopFacts.v
theories/IeeeLoopFacts2.v
theories/IeeeLoopSpec.v
theories/IterateFacts.v
theories/Jit.v
theories/JitFacts.v
theories/JitSpec.v
theories/LayerFacts.v
theories/LayerFacts2.v
theories/LayerFacts3.v
theories/LayerFacts4.v
theories/LayerSpec.v
theories/Layers.v
theories/LoopFacts.v
theories/LoopSpec.v
theories/MaskFacts.v
theories/Messages.v
theories/Messages2.v
theories/Messages2Facts.v
theories/Messages2Facts2.v
theories/Messages2Spec.v
theories/MessagesFacts.v
theories/MessagesFacts2.v
theories/MessagesFacts3.v
theories/MessagesFacts4.v
theories/MessagesSpec.v
theories/Mixed.v
theories/MixedFacts.v
theories/MixedSpec.v
theories/MonoFacts.v
theories/MoveFacts.v
theories/Num.v
theories/OrderSpec.v
theories/PaceFacts.v
theories/PaceSpec.v
theories/PoolFacts.v
theories/PoolSpec.v
theories/Precision.v
theories/PropsBuilder.v
theories/PropsCheckify.v
theories/PropsCompare.v
theories/PropsController.v
theories/PropsDataclass.v
theories/PropsDocExample.v
theories/PropsDual.v
theories/PropsDualEdits.v
theories/PropsEditor.v
theories/PropsEdits.v
theories/PropsEditsFloat.v
theories/PropsEpsilon.v
theories/PropsEpsilonFloat.v
theories/PropsFloat.v
theories/PropsFloat2.v
theories/PropsHeap.v
theories/PropsIeeeLoop.v
theories/PropsJit.v
theories/PropsLayers.v
theories/PropsLoop.v
theories/PropsLoopFloat.v
theories/PropsMessages.v
theories/PropsMessages2.v
theories/PropsMixed.v
theories/PropsMono.v
theories/PropsNan.v
theories/PropsOrder.v
theories/PropsPace.v
theories/PropsPonder.v
theories/PropsPonderFloat.v
theories/PropsPool.v
theories/PropsPoolFloat.v
theories/PropsPrecision.v
theories/PropsPytree.v
theories/PropsRefs.v
theories/PropsRename.v
theories/PropsResume.v
theories/PropsResumeFloat.v
theories/PropsRounding.v
theories/PropsScalar.v
theories/PropsSlice.v
theories/PropsSlope.v
theories/PropsStable.v
theories/PropsState.v
theories/PropsStream.v
theories/PropsStreamFloat.v
theories/PropsSubset.v
theories/PropsText.v
theories/PropsThreads.v
theories/PropsTrace.v
theories/PropsUtils.v
theories/PropsViewer.v
theories/PropsWarn.v
theories/PropsZero.v
theories/PyStr.v
theories/PyTree.v
theories/PyTreeFacts.v
theories/PytreeFacts.v
theories/PytreeSpec.v
theories/QcFacts.v
theories/Refs.v
theories/RefsFacts.v
theories/RefsFacts2.v
theories/RefsSpec.v
theories/RenameFacts.v
theories/RenameSpec.v
theories/RepoTests.v
theories/ResetFacts.v
theories/ResumeFacts.v
theories/ResumeSpec.v
theories/Samples.v
theories/ScalarFacts.v
theories/ScalarSpec.v
theories/ScriptFacts.v
theories/SliceFacts.v
theories/SliceSpec.v
theories/SlopeFacts.v
theories/SlopeSpec.v
theories/Spec.v
theories/SpecFacts.v
theories/StableFacts.v
theories/StableSpec.v
theories/StateFacts.v
theories/StateSpec.v
theories/States.v
theories/StepFacts.v
theories/StreamSpec.v
theories/SubsetFacts.v
theories/SubsetSpec.v
theories/Tensor.v
theories/TensorFacts.v
theories/Text.v
theories/TextFacts.v
theories/TextSpec.v
theories/ThreadFacts.v
theories/ThreadFacts2.v
theories/ThreadFacts3.v
theories/ThreadSpec.v
theories/TraceFacts.v
theories/TraceFacts2.v
theories/TraceSpec.v
theories/Utils.v
theories/UtilsFacts.v
theories/UtilsSpec.v
theories/Viewer.v
theories/ViewerFacts.v
theories/ViewerSpec.v
theories/WarnSpec.v
theories/Warnings.v
theories/Wf.v
