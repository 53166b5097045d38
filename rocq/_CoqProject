-Q theories Verif
theories/Base.v
theories/Model_MotorOps.v
theories/Model_Pru.v
theories/Spec_Motion.v
theories/Proofs_MotorOps.v
theories/Model_Sim.v
theories/Proofs_Pru.v
theories/Proofs_Position.v
theories/Model_Float.v
theories/Model_Speed.v
theories/Prop_Motion.v
theories/Text.v
theories/Lib_List.v
theories/Model_StringUtil.v
theories/Spec_Text.v
theories/Proofs_StringUtil.v
theories/Model_RingDeque.v
theories/Spec_Ring.v
theories/Proofs_RingDeque.v
theories/Prop_Text.v
theories/Model_Linebuf.v
theories/Model_Streamer.v
theories/Spec_Stream.v
theories/Proofs_Linebuf.v
theories/Proofs_Streamer.v
theories/Prop_Stream.v
theories/Model_Lexer.v
theories/Spec_Lexer.v
theories/Proofs_Lexer.v
theories/Prop_Lexer.v
theories/Model_FdMux.v
theories/Spec_FdMux.v
theories/Proofs_FdMux.v
theories/Prop_FdMux.v
theories/Model_PruQueue.v
theories/Spec_Queue.v
theories/Proofs_PruQueue.v
theories/Proofs_PruQueue2.v
theories/Prop_Queue.v
theories/Model_Axis.v
theories/Model_Hardware.v
theories/Spec_Hardware.v
theories/Proofs_Hardware.v
theories/Prop_Hardware.v
theories/Model_Machine.v
theories/Spec_Machine.v
theories/Proofs_Machine.v
theories/Proofs_Machine2.v
theories/Proofs_Machine3.v
theories/Prop_Machine.v
theories/Model_Number.v
theories/Model_Config.v
theories/Spec_Config.v
theories/Proofs_Config.v
theories/Proofs_Config2.v
theories/Prop_Config.v
theories/Spec_Real.v
theories/Proofs_Real.v
theories/Model_Spindle.v
theories/Spec_Spindle.v
theories/Proofs_Spindle.v
theories/Proofs_Pwm.v
theories/Prop_Spindle.v
theories/Model_Stats.v
theories/Prop_Stats.v
theories/Model_Gcode.v
theories/Spec_Expr.v
theories/Proofs_Expr.v
theories/Spec_Line.v
theories/Proofs_Value.v
theories/Proofs_Fuel.v
theories/Proofs_Total.v
theories/Proofs_Progress.v
theories/Prop_Expr.v
theories/Prop_Line.v
theories/Spec_Events.v
theories/Proofs_Run.v
theories/Proofs_Events.v
theories/Prop_Events.v
theories/Spec_Words.v
theories/Proofs_Words.v
theories/Spec_Moves.v
theories/Proofs_Moves.v
theories/Prop_Moves.v
theories/Spec_Coords.v
theories/Proofs_Offset.v
theories/Spec_Params.v
theories/Proofs_Params.v
theories/Prop_Params.v
theories/Proofs_Coords.v
theories/Prop_Coords.v
theories/Model_Planner.v
theories/Spec_Planner.v
theories/Proofs_Planner.v
theories/Prop_Planner.v
theories/Model_ParamFile.v
theories/Spec_ParamFile.v
theories/Proofs_ParamFile.v
theories/Prop_ParamFile.v
theories/Model_Arc.v
theories/Spec_Arc.v
theories/Proofs_Circle.v
theories/Proofs_Arc.v
theories/Proofs_Turn.v
theories/Proofs_Radius.v
theories/Prop_Arc.v
theories/Prop_Radius.v
theories/Spec_Curves.v
theories/Proofs_Curves.v
theories/Prop_Curves.v
theories/Spec_Speeds.v
theories/Proofs_Ramp.v
theories/Proofs_Profile.v
theories/Proofs_Speeds.v
theories/Proofs_Joints.v
theories/Proofs_Limits.v
theories/Proofs_Corner.v
theories/Proofs_Path.v
theories/Prop_Speeds.v
theories/Spec_Limits.v
theories/Proofs_Within.v
theories/Proofs_Sound.v
theories/Proofs_Keep.v
theories/Prop_Limits.v
theories/Spec_Loop.v
theories/Proofs_Loop.v
theories/Proofs_While.v
theories/Prop_Loop.v
theories/Spec_If.v
theories/Proofs_If.v
theories/Prop_If.v
theories/Spec_Requests.v
theories/Prop_Requests.v
theories/Proofs_Law.v
theories/Proofs_Timing.v
theories/Proofs_Delay.v
theories/Proofs_Ticks.v
theories/Spec_Timing.v
theories/Proofs_Pace.v
theories/Prop_Timing.v
theories/Spec_Commands.v
theories/Proofs_Commands.v
theories/Prop_Commands.v
theories/Spec_Corner.v
theories/Prop_Corner.v
theories/Model_Chain.v
theories/Spec_Chain.v
theories/Prop_Chain.v
theories/Model_Times.v
theories/Spec_Times.v
theories/Prop_Times.v
theories/Model_Gpio.v
theories/Spec_Gpio.v
theories/Prop_Gpio.v
theories/Model_Outputs.v
theories/Spec_Outputs.v
theories/Prop_Outputs.v
theories/Model_Server.v
theories/Spec_Server.v
theories/Prop_Server.v
theories/Model_Irq.v
theories/Spec_Irq.v
theories/Proofs_Irq.v
theories/Proofs_Irq2.v
theories/Prop_Irq.v
theories/Model_Main.v
theories/Spec_Main.v
theories/Prop_Main.v
theories/Model_Whole.v
theories/Spec_Whole.v
theories/Proofs_Whole.v
theories/Prop_Whole.v
theories/Prop_WholePulses.v
theories/Spec_Track.v
theories/Proofs_Track.v
theories/Model_Joined.v
theories/Spec_Joined.v
theories/Proofs_Joined.v
theories/Prop_Joined.v
theories/Prop_Switches.v
theories/Model_Audio.v
theories/Spec_Audio.v
theories/Proofs_Audio.v
theories/Prop_Audio.v
theories/Spec_AudioTime.v
theories/Proofs_AudioTime.v
theories/Prop_AudioTime.v
theories/Model_View.v
theories/Spec_View.v
theories/Prop_View.v
theories/Prop_ViewRange.v
theories/Model_MachineView.v
theories/Spec_MachineView.v
theories/Prop_MachineView.v
theories/Prop_MachineColors.v
theories/Prop_MachineSpeed.v
theories/Prop_MachineSpan.v
theories/Prop_MachineRamp.v
theories/Prop_MachineBetween.v
theories/Model_Hershey.v
theories/Prop_Hershey.v
theories/Prop_HersheyLines.v
