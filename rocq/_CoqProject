-Q theories Verif
theories/PyBase.v
theories/Async.v
theories/Async_Proofs.v
theories/PyBytes.v
theories/PyFloat.v
theories/Mux_Model.v
theories/Protocol_Spec.v
theories/Zbits.v
theories/Ctrl_Model.v
theories/Ctrl_Examples.v
theories/Mux_Proofs.v
theories/Props_Varuint.v
theories/Float_Proofs.v
theories/Quant_Proofs.v
theories/Props_Quant.v
theories/Fw_Spec.v
theories/Parser_Proofs.v
theories/Regmap_Proofs.v
theories/Props_Parser.v
theories/Combiner_Proofs.v
theories/Query_Proofs.v
theories/Props_Query.v
theories/Command_Spec.v
theories/Command_Proofs.v
theories/Props_Command.v
theories/Props_Units.v
theories/Props_Pi.v
theories/Props_Frame.v
theories/Stream_Model.v
theories/Stream_Safe.v
theories/Props_Stream.v
theories/Wait_Model.v
theories/Props_Wait.v
theories/Serial.v
theories/Async_Inv.v
theories/Fdcanusb_Model.v
theories/Props_Fdcanusb.v
theories/Props_Cycle.v
theories/Router_Model.v
theories/Props_Router.v
theories/Aioserial_Model.v
theories/Props_Aioserial.v
theories/Reader_Model.v
theories/Reader_Spec.v
theories/Reader_Proofs.v
theories/Props_Reader.v
theories/Flash_Model.v
theories/Flash_Proofs.v
theories/Boot_Proofs.v
theories/Props_Flash.v
theories/Tool_Model.v
theories/Props_Tool.v
theories/Calib_Model.v
theories/Config_Model.v
theories/Config_Spec.v
theories/Config_Proofs.v
theories/Props_Config.v
theories/Fsum_Proofs.v
theories/Props_Angle.v
theories/Props_Fit.v
theories/Encoder_Model.v
theories/Encoder_Spec.v
theories/Encoder_Proofs.v
theories/Props_Encoder.v
theories/Props_Hall.v
theories/Calfile_Model.v
theories/Props_Calfile.v
theories/Proc.v
theories/Device_Model.v
theories/Calproc_Model.v
theories/Runner_Model.v
theories/Device_Spec.v
theories/Device_Proofs.v
theories/Props_Restore.v
theories/Calproc_Spec.v
theories/Calproc_Proofs.v
theories/Calproc_Clean.v
theories/Calproc_Examples.v
theories/Props_Calproc.v
theories/Props_Report.v
theories/Props_Recording.v
theories/Calproc_Bench.v
theories/Props_Stop.v
theories/Runner_Spec.v
theories/Props_Runner.v
theories/Props_Upgrade.v
theories/Props_Recalibrate.v
theories/Migrate_Spec.v
theories/Migrate_Proofs.v
theories/Migrate_Tables.v
theories/Props_Migrate.v
theories/Volt_Spec.v
theories/Volt_Proofs.v
theories/Props_Volt.v
theories/Offset_Spec.v
theories/Props_Offset.v
theories/Ready_Spec.v
theories/Props_Ready.v
theories/Telemetry_Spec.v
theories/Props_Telemetry.v
theories/Elf_Model.v
theories/Elf_Spec.v
theories/Props_Elf.v
theories/Aiostream_Model.v
theories/Aiostream_Spec.v
theories/Props_Aiostream.v
theories/Answer_Spec.v
theories/Answer_Proofs.v
theories/Props_Answer.v
theories/Decode_Model.v
theories/Decode_Spec.v
theories/Props_Decode.v
theories/Tview_Model.v
theories/Tview_Spec.v
theories/Tview_Proofs.v
theories/Props_Tview.v
theories/Window_Model.v
theories/Window_Spec.v
theories/Window_Proofs.v
theories/Props_Window.v
theories/Userline_Model.v
theories/Userline_Spec.v
theories/Props_Userline.v
theories/Tree_Model.v
theories/Tree_Spec.v
theories/Props_Tree.v
theories/Plot_Model.v
theories/Plot_Spec.v
theories/Props_Plot.v
theories/Compensate_Model.v
theories/Compensate_Spec.v
theories/Compensate_Proofs.v
theories/Props_Cogging.v
theories/Props_Compensate.v
theories/Props_Deviation.v
theories/Clock_Model.v
theories/Clock_Spec.v
theories/Props_Clock.v
theories/Bct_Model.v
theories/Bct_Spec.v
theories/Props_Bct.v
