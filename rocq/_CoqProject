-Q theories Verif
theories/Base.v
theories/RingModel.v
theories/RingSpec.v
theories/RingProofs.v
theories/PropRing.v
theories/EepromModel.v
theories/EepromSpec.v
theories/EepromProofs.v
theories/PropEeprom.v
theories/WaitModel.v
theories/PropWait.v
theories/IoModel.v
theories/IoSpec.v
theories/IoProofs.v
theories/PropIo.v
theories/McpModel.v
theories/McpSpec.v
theories/McpProofs.v
theories/PropMcp.v
theories/MrilModel.v
theories/MrilSpec.v
theories/MrilProofs.v
theories/PropMril.v
theories/Arith.v
theories/ServoModel.v
theories/ServoSpec.v
theories/ServoProofs.v
theories/PropServo.v
theories/RobotModel.v
theories/RobotSpec.v
theories/RobotProofs.v
theories/RobotExact.v
theories/PropRobot.v
theories/KinModel.v
theories/KinSpec.v
theories/KinProofs.v
theories/KinEuler.v
theories/KinInv.v
theories/KinWrist.v
theories/KinSolve.v
theories/KinNan.v
theories/KinReach.v
theories/PropKin.v
theories/ConfigModel.v
theories/ConfigProofs.v
theories/PropConfig.v
theories/PropArm.v
theories/DeviceModel.v
theories/DeviceSpec.v
theories/DeviceProofs.v
theories/PropDevice.v
theories/SystemModel.v
theories/SystemSpec.v
theories/SystemProofs.v
theories/SystemSafe.v
theories/SystemQueue.v
theories/SystemOutput.v
theories/SystemOrigin.v
theories/PropSystem.v
theories/SystemMore.v
theories/PropProgress.v
theories/SystemMotion.v
theories/SystemAxes.v
theories/PropMotion.v
theories/PropFaults.v
theories/FloatBridge.v
theories/ServoFloat.v
theories/PropFloat.v
theories/PropFloatMoves.v
theories/PropFloatSync.v
theories/PropSettings.v
theories/PropKit.v
theories/DisplayModel.v
theories/PropDisplay.v
theories/KinFloat.v
theories/PropKinFloat.v
theories/PropKinOrient.v
theories/FineModel.v
theories/FineProofs.v
theories/PropFine.v
theories/PropFineFloat.v
theories/FineSystem.v
theories/PropFineSystem.v
theories/PropFineRead.v
theories/PropFineExact.v
theories/LinearFloat.v
theories/PropFloatLinear.v
theories/DecFloat.v
theories/PropFloatText.v
theories/SystemDefined.v
theories/KinBounded.v
theories/PropFloatHost.v
theories/PropFloatAxes.v
theories/SystemArrive.v
theories/PropFloatArrive.v
theories/PropFloatKit.v
theories/PropFloatSpeed.v
theories/PropMore.v
theories/PropTeach.v
theories/StartModel.v
theories/PropStart.v
theories/GfxFont.v
theories/GfxModel.v
theories/GfxProofs.v
theories/PropScreen.v
theories/PropPicture.v
theories/PropDisplayFloat.v
theories/CalibModel.v
theories/CalibProofs.v
theories/PropCalib.v
theories/CalibMoves.v
theories/PropCalibMove.v
theories/PropCalibMore.v
theories/Crank.v
theories/PropArmD.v
theories/UartModel.v
theories/PropUart.v
theories/LoggerModel.v
theories/PropLogger.v
theories/PropBlank.v
