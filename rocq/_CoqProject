-Q theories Verif
theories/Base.v
theories/Sort.v
theories/BMap.v
theories/Str.v
theories/Regex.v
theories/M_Line.v
theories/S_Line.v
theories/P_Line.v
theories/T_Line.v
theories/M_Names.v
theories/S_Names.v
theories/P_Names.v
theories/T_Names.v
theories/Utf8.v
theories/M_Path.v
theories/S_Path.v
theories/P_Path.v
theories/T_Path.v
theories/M_Source.v
theories/S_Source.v
theories/P_Source.v
theories/T_Source.v
theories/M_Symbol.v
theories/M_Collector.v
theories/S_Symbol.v
theories/P_Symbol.v
theories/T_Symbol.v
theories/S_Collector.v
theories/P_Collector.v
theories/P_Walk.v
theories/P_Tree.v
theories/P_Func.v
theories/P_Calls.v
theories/P_Overrun.v
theories/P_Exact.v
theories/T_Collector.v
theories/M_Object.v
theories/S_Object.v
theories/P_Object.v
theories/P_Merge.v
theories/P_Chain.v
theories/P_From.v
theories/T_Object.v
theories/S_Format.v
theories/P_Format.v
theories/T_Format.v
theories/M_Mapping.v
theories/S_Mapping.v
theories/P_Mapping.v
theories/T_Mapping.v
theories/M_Fs.v
theories/M_Digest.v
theories/S_Digest.v
theories/P_Digest.v
theories/T_Digest.v
theories/S_Fs.v
theories/M_Cache.v
theories/S_Cache.v
theories/P_Fs.v
theories/P_Cache.v
theories/T_Cache.v
theories/M_Store.v
theories/S_Store.v
theories/P_Store.v
theories/T_Store.v
theories/M_Sched.v
theories/S_Sched.v
theories/P_Sched.v
theories/P_Run.v
theories/P_Ends.v
theories/T_Sched.v
theories/M_Input.v
theories/M_Cli.v
theories/S_Input.v
theories/P_Input.v
theories/T_Input.v
theories/S_Cli.v
theories/P_Cli.v
theories/T_Cli.v
theories/M_Args.v
theories/S_Args.v
theories/P_Args.v
theories/T_Args.v
theories/M_Many.v
theories/S_Many.v
theories/P_Many.v
theories/P_Several.v
theories/T_Many.v
theories/S_Process.v
theories/P_Process.v
theories/T_Process.v
theories/S_Symbolize.v
theories/P_Win.v
theories/P_Symbolize.v
theories/T_Symbolize.v
theories/M_Local.v
theories/T_Local.v
theories/M_Main.v
theories/S_Main.v
theories/P_Main.v
theories/T_Main.v
theories/S_Where.v
theories/P_Where.v
theories/T_Where.v
theories/M_Shared.v
theories/S_Shared.v
theories/P_Shared.v
theories/T_Shared.v
theories/P_Progress.v
theories/S_Whole.v
theories/T_Whole.v
theories/S_Plain.v
theories/P_Plain.v
theories/S_Failing.v
theories/T_Failing.v
theories/T_Plain.v
theories/T_One.v
theories/P_Both.v
theories/T_Both.v
theories/M_Beside.v
theories/S_Beside.v
theories/P_Beside.v
theories/T_Beside.v
theories/S_Fetched.v
theories/P_Fetched.v
theories/T_Fetched.v
theories/S_Again.v
theories/P_Again.v
theories/T_Again.v
theories/S_Grown.v
theories/P_Grown.v
theories/T_Grown.v
theories/T_Repeat.v
theories/S_Confined.v
theories/P_Confined.v
theories/T_Confined.v
theories/S_Added.v
theories/P_Added.v
theories/T_Added.v
theories/M_Left.v
theories/P_Left.v
theories/T_Left.v
theories/T_Apart.v
