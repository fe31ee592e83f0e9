-Q theories Verif

theories/Base.v
theories/BaseFacts.v
theories/Tensor.v
theories/TensorSpec.v
theories/TensorFacts.v
theories/Properties_Storage.v
theories/Outfile.v
theories/OutfileSpec.v
theories/OutfileFacts.v
theories/Properties_Files.v
theories/Toml.v
theories/TomlSpec.v
theories/TomlFacts.v
theories/Options.v
theories/OptionsSpec.v
theories/OptionsFacts.v
theories/Properties_Input.v
theories/FloatOps.v
theories/Newton.v
theories/NewtonSpec.v
theories/NewtonFacts.v
theories/Properties_Newton.v
theories/Alloc.v
theories/AllocSpec.v
theories/AllocFacts.v
theories/Properties_Alloc.v
theories/Helicity.v
theories/HelicitySpec.v
theories/HelicityFacts.v
theories/Properties_Helicity.v
theories/RandomGen.v
theories/RandomSpec.v
theories/RandomFacts.v
theories/Properties_Random.v
theories/Scan.v
theories/ScanSpec.v
theories/ScanFacts.v
theories/Properties_Scan.v
theories/Star.v
theories/StarFacts.v
theories/Collect.v
theories/CollectFacts.v
theories/Properties_Collect.v
theories/ScanDet.v
theories/ScanDetFacts.v
theories/Properties_ScanDet.v
theories/Grid.v
theories/GridSpec.v
theories/GridFacts.v
theories/Properties_Grid.v
theories/Farm.v
theories/FarmFacts.v
theories/Properties_NewtonTrace.v
theories/MScan.v
theories/MScanSpec.v
theories/MScanFacts.v
theories/MScanDims.v
theories/MScanRun.v
theories/Properties_Farm.v
theories/Properties_MScan.v
theories/Opt.v
theories/OptSpec.v
theories/OptState.v
theories/OptResid.v
theories/OptRun.v
theories/OptEnd.v
theories/Properties_Opt.v
theories/OptMulti.v
theories/Properties_MultiOpt.v
theories/MathOps.v
theories/MathFacts.v
theories/Diff.v
theories/DiffFacts.v
theories/Properties_Diff.v
theories/Axis.v
theories/Curve.v
theories/AxisSpec.v
theories/AxisFacts.v
theories/Properties_Axis.v
theories/R1.v
theories/R1Spec.v
theories/R1Facts.v
theories/R1Stale.v
theories/Properties_R1.v
theories/R2.v
theories/R2Spec.v
theories/R2Facts.v
theories/Properties_R2.v
theories/Jet.v
theories/Properties_Field.v
theories/RSing.v
theories/RSingSpec.v
theories/RSingFacts.v
theories/Properties_RSing.v
theories/NetCDF.v
theories/NetCDFOut.v
theories/NetCDFSpec.v
theories/NetCDFFacts.v
theories/NetCDFRead.v
theories/Properties_NetCDF.v
theories/NetCDFNames.v
theories/GradGradB.v
theories/GradGradBSpec.v
theories/Properties_GradGradB.v
theories/Order.v
theories/R3Spec.v
theories/R3Facts.v
theories/Properties_Third.v
theories/Run.v
theories/RunSpec.v
theories/RunFacts.v
theories/RunSafe.v
theories/RunFile.v
theories/RunView.v
theories/Properties_Run.v
theories/Properties_RunSafe.v
theories/RunShown.v
theories/RunCase.v
theories/Properties_RunFile.v
theories/Properties_RunField.v
theories/Properties_RunMore.v
theories/NewtonLast.v
theories/Properties_RunStatus.v
theories/OptFixed.v
theories/OptQsc.v
theories/Properties_OptQsc.v
theories/Properties_MultiQsc.v
theories/RunInput.v
theories/ScanQsc.v
theories/Properties_ScanQsc.v
theories/ScanFile.v
theories/Properties_ScanFile.v
theories/Properties_MScanQsc.v
theories/MScanFile.v
theories/Properties_MScanFile.v
theories/ScanDraw.v
theories/Properties_ScanDraw.v
theories/ScanInput.v
theories/Properties_ScanInput.v
theories/OptInput.v
theories/Properties_OptInput.v
theories/MultiInput.v
theories/Properties_MultiInput.v
theories/Properties_Defaults.v
