-Q theories Verif
theories/PyBase.v
theories/PyFacts.v
theories/Regex.v
theories/RegexFacts.v
theories/M_Utils.v
theories/S_Utils.v
theories/L_Utils.v
theories/P_Utils.v
theories/M_Elf.v
theories/S_Elf.v
theories/L_Elf.v
theories/L_ElfText.v
theories/P_Elf.v
theories/M_Syscall.v
theories/S_Syscall.v
theories/L_Syscall.v
theories/P_Syscall.v
theories/M_KconfigTables.v
theories/M_Arch.v
theories/S_Arch.v
theories/L_Arch.v
theories/L_Arch2.v
theories/L_Arch3.v
theories/P_Arch.v
theories/S_Dummy.v
theories/L_Dummy.v
theories/L_Dummy2.v
theories/L_Dummy3.v
theories/P_Dummy.v
theories/M_Emu.v
theories/S_Emu.v
theories/L_Emu.v
theories/L_Emu2.v
theories/L_Emu3.v
theories/P_Emu.v
theories/M_Kconfig.v
theories/M_Kernel.v
theories/M_Build.v
theories/S_Kernel.v
theories/L_Kernel.v
theories/L_Kernel2.v
theories/L_Kernel3.v
theories/L_Kernel4.v
theories/L_Kernel5.v
theories/L_Kernel6.v
theories/L_Kernel7.v
theories/L_Kernel8.v
theories/L_Kernel9.v
theories/L_Kernel10.v
theories/P_Kernel.v
theories/S_Build.v
theories/L_Build.v
theories/P_Build.v
theories/M_Signature.v
theories/S_Signature.v
theories/L_Signature.v
theories/L_Signature2.v
theories/L_Signature3.v
theories/P_Signature.v
theories/RegexDen.v
theories/M_Location.v
theories/S_Location.v
theories/L_Location.v
theories/L_Location2.v
theories/L_Location3.v
theories/L_Location4.v
theories/L_Location5.v
theories/L_Location6.v
theories/M_Annotate.v
theories/L_Location7.v
theories/L_Location8.v
theories/L_Location9.v
theories/P_Location.v
theories/M_Config.v
theories/S_Config.v
theories/L_Config.v
theories/L_Config2.v
theories/L_Config3.v
theories/L_Config4.v
theories/P_Config.v
theories/M_Output.v
theories/S_Output.v
theories/L_Output.v
theories/P_Output.v
theories/M_Main.v
theories/S_Main.v
theories/L_Main.v
theories/L_Main2.v
theories/P_Main.v
theories/S_Init.v
theories/L_Init.v
theories/P_Init.v
theories/S_Names.v
theories/L_Names.v
theories/P_Names.v
theories/M_Search.v
theories/S_Search.v
theories/L_Search.v
theories/L_Search2.v
theories/P_Search.v
theories/M_Warn.v
theories/S_Warn.v
theories/L_Warn.v
theories/P_Warn.v
theories/L_Print.v
theories/P_Print.v
theories/S_Esoteric.v
theories/L_Esoteric.v
theories/P_Esoteric.v
theories/M_Json.v
theories/S_Json.v
theories/L_Json.v
theories/P_Json.v
theories/S_Words.v
theories/L_Words.v
theories/P_Words.v
theories/M_Templates.v
theories/M_Html.v
theories/S_Html.v
theories/L_Html.v
theories/L_Html2.v
theories/L_Html3.v
theories/P_Html.v
theories/M_Sort.v
theories/S_Sort.v
theories/L_Sort.v
theories/L_Sort2.v
theories/P_Sort.v
theories/M_Log.v
theories/S_Log.v
theories/M_LogTable.v
theories/L_Log.v
theories/P_Log.v
theories/M_Command.v
theories/S_Command.v
theories/L_Command.v
theories/P_Command.v
theories/S_Rank.v
theories/L_Rank.v
theories/L_Rank2.v
theories/P_Rank.v
theories/L_Sourceless.v
theories/P_Sourceless.v
theories/S_Declared.v
theories/L_Declared.v
theories/L_Declared2.v
theories/P_Declared.v
theories/S_Whole.v
theories/L_Whole.v
theories/L_Sound.v
theories/L_Whole2.v
theories/P_Whole.v
theories/S_Ends.v
theories/L_Ends.v
theories/P_Ends.v
theories/M_Args.v
theories/S_Args.v
theories/L_Args.v
theories/L_Args2.v
theories/L_Args3.v
theories/L_Args4.v
theories/L_Args5.v
theories/L_Args6.v
theories/L_Args7.v
theories/L_Args8.v
theories/P_Args.v
theories/S_Blind.v
theories/L_Blind.v
theories/P_Blind.v
theories/M_Pattern.v
theories/S_Pattern.v
theories/L_Pattern.v
theories/P_Pattern.v
theories/M_Program.v
theories/L_Table.v
theories/S_Program.v
theories/L_Program.v
theories/L_Program2.v
theories/L_Program3.v
theories/P_Program.v
theories/M_Ripgrep.v
theories/S_Ripgrep.v
theories/L_Ripgrep.v
theories/P_Ripgrep.v
theories/L_Emu4.v
theories/S_Default.v
theories/P_Default.v
theories/M_Text.v
theories/S_Text.v
theories/L_Text.v
theories/L_Text2.v
theories/L_Text3.v
theories/P_Text.v
theories/M_HelpText.v
theories/M_Help.v
theories/S_Help.v
theories/L_Help.v
theories/P_Help.v
theories/M_Workshop.v
theories/S_Workshop.v
theories/L_Workshop.v
theories/L_Workshop2.v
theories/L_Workshop3.v
theories/L_Workshop4.v
theories/L_Workshop5.v
theories/L_Workshop6.v
theories/L_Workshop7.v
theories/L_Took.v
theories/P_Workshop.v
theories/L_Workshop8.v
theories/M_Explain.v
theories/M_Giveup.v
theories/S_Explain.v
theories/S_Giveup.v
theories/L_Explain.v
theories/L_Explain2.v
theories/L_Explain3.v
theories/L_Explain4.v
theories/L_Giveup.v
theories/P_Explain.v
theories/S_Isolation.v
theories/L_Isolation.v
theories/P_Isolation.v
theories/M_Links.v
theories/S_Links.v
theories/L_Links.v
theories/L_Links2.v
theories/L_Links3.v
theories/L_Links4.v
theories/P_Links.v
theories/S_Needs.v
theories/L_Needs.v
theories/P_Needs.v
theories/S_Rows.v
theories/L_Rows.v
theories/P_Rows.v
theories/M_Wrap.v
theories/S_Wrap.v
theories/L_Wrap.v
theories/L_Wrap2.v
theories/L_Wrap3.v
theories/L_Wrap4.v
theories/P_Wrap.v
theories/L_Build2.v
theories/P_Newlines.v
theories/L_Pattern2.v
theories/S_Link.v
theories/L_Link.v
theories/P_Link.v
theories/P_Cases.v
theories/P_Tags.v
theories/S_Options.v
theories/L_Options.v
theories/P_Options.v
theories/S_Strip.v
theories/L_Strip.v
theories/P_Strip.v
theories/M_Pipe.v
theories/S_Pipe.v
theories/L_Pipe.v
theories/P_Pipe.v
theories/M_Dispatch.v
theories/S_Dispatch.v
theories/L_Dispatch.v
theories/L_Dispatch2.v
theories/P_Dispatch.v
theories/M_Skipped.v
theories/S_Skipped.v
theories/L_Skipped.v
theories/P_Skipped.v
