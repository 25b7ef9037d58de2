-Q theories Verif
theories/Base.v
theories/Numerals.v
theories/Editor_Model.v
theories/Editor_Spec.v
theories/Editor_Proofs.v
theories/Editor_Props.v
theories/Safety_Model.v
theories/Safety_Spec.v
theories/Safety_Proofs.v
theories/Safety_Props.v
theories/Eval_Model.v
theories/Eval_Spec.v
theories/Eval_Props.v
theories/Jobs_Model.v
theories/Jobs_Spec.v
theories/Jobs_Proofs.v
theories/Jobs_Props.v
theories/Output_Model.v
theories/Output_Spec.v
theories/Output_Props.v
theories/Env_Model.v
theories/Env_Spec.v
theories/Env_Props.v
theories/History_Model.v
theories/History_Spec.v
theories/History_Proofs.v
theories/History_Props.v
theories/Frecency_Model.v
theories/Frecency_Spec.v
theories/Frecency_Proofs.v
theories/Frecency_Props.v
theories/Fs_Model.v
theories/Fs_Proofs.v
theories/Serve_Model.v
theories/Serve_Spec.v
theories/Serve_Props.v
theories/Tools_Model.v
theories/Tools_Spec.v
theories/Tools_Props.v
theories/Peg_Model.v
theories/Peg_Proofs.v
theories/Grammar_Model.v
theories/Parse_Model.v
theories/Parse_Spec.v
theories/Grammar_Proofs.v
theories/Parse_Proofs.v
theories/Highlight_Model.v
theories/Token_Model.v
theories/Token_Spec.v
theories/Token_Proofs.v
theories/Expand_Model.v
theories/Expand_Spec.v
theories/Expand_Proofs.v
theories/Brace_Proofs.v
theories/Alias_Proofs.v
theories/Expand_Props.v
theories/Token_Props.v
theories/Parse_Props.v
theories/Check_Model.v
theories/Check_Spec.v
theories/Check_Props.v
theories/Keys_Model.v
theories/Keys_Spec.v
theories/Keys_Props.v
theories/Cut_Model.v
theories/Cut_Spec.v
theories/Cut_Props.v
theories/Secrets_Model.v
theories/Secrets_Spec.v
theories/Secrets_Proofs.v
theories/Secrets_Props.v
theories/Dmv_Model.v
theories/Dmv_Spec.v
theories/Dmv_Props.v
theories/Lread_Model.v
theories/Lread_Spec.v
theories/Lread_Proofs.v
theories/Lread_Props.v
theories/Lisp_Model.v
theories/Lisp_Spec.v
theories/Lisp_Proofs.v
theories/Lisp_Scope.v
theories/Lisp_Props.v
theories/Pipe_Model.v
theories/Pipe_Spec.v
theories/Pipe_Proofs.v
theories/Pipe_Props.v
theories/Direnv_Model.v
theories/Direnv_Spec.v
theories/Direnv_Proofs.v
theories/Direnv_Props.v
theories/Hooks_Model.v
theories/Hooks_Spec.v
theories/Hooks_Proofs.v
theories/Names_Proofs.v
theories/Hooks_Props.v
theories/Addhook_Model.v
theories/Addhook_Spec.v
theories/Addhook_Props.v
theories/Lisp_Stays.v
theories/Config_Model.v
theories/Config_Spec.v
theories/Config_Props.v
theories/Include_Model.v
theories/Include_Spec.v
theories/Include_Props.v
theories/Runs_Model.v
theories/Runs_Spec.v
theories/Runs_Props.v
theories/Task_Model.v
theories/Task_Spec.v
theories/Task_Props.v
theories/Timing_Model.v
theories/Timing_Spec.v
theories/Timing_Props.v
theories/Import_Model.v
theories/Import_Spec.v
theories/Import_Props.v
theories/Notebook_Model.v
theories/Notebook_Spec.v
theories/Notebook_Props.v
theories/Comp_Model.v
theories/Comp_Spec.v
theories/Comp_Proofs.v
theories/Comp_Words.v
theories/Comp_Subs.v
theories/Comp_Props.v
theories/Comp_Ends.v
theories/Comp_Run_Props.v
theories/Comp_Args_Props.v
theories/Menu_Model.v
theories/Menu_Spec.v
theories/Menu_Proofs.v
theories/Menu_Props.v
theories/Cache_Props.v
theories/Files_Spec.v
theories/Files_Props.v
theories/Line_Model.v
theories/Line_Spec.v
theories/Line_Proofs.v
theories/Line_Props.v
theories/Suggest_Model.v
theories/Suggest_Spec.v
theories/Suggest_Props.v
theories/Answer_Props.v
theories/Meaning_Spec.v
theories/Meaning_Props.v
theories/Offer_Model.v
theories/Offer_Spec.v
theories/Offer_Props.v
theories/Table_Model.v
theories/Table_Spec.v
theories/Table_Props.v
theories/Typo_Model.v
theories/Typo_Spec.v
theories/Typo_Props.v
theories/Names_Model.v
theories/Names_Spec.v
theories/Names_Props.v
theories/Project_Model.v
theories/Project_Spec.v
theories/Project_Props.v
theories/Activate_Props.v
theories/Git_Model.v
theories/Git_Spec.v
theories/Git_Props.v
theories/Gittree_Props.v
theories/Gitlog_Props.v
theories/Library_Model.v
theories/Library_Spec.v
theories/Library_Props.v
theories/Libmap_Props.v
theories/Markdown_Model.v
theories/Markdown_Spec.v
theories/Markdown_Props.v
theories/Jump_Model.v
theories/Jump_Spec.v
theories/Jump_Props.v
theories/Title_Model.v
theories/Title_Props.v
theories/Loader_Model.v
theories/Loader_Spec.v
theories/Loader_Props.v
theories/Explain_Model.v
theories/Explain_Spec.v
theories/Explain_Props.v
theories/Mcp_Model.v
theories/Mcp_Spec.v
theories/Mcp_Props.v
theories/Mcpsafe_Props.v
theories/Chat_Model.v
theories/Chat_Spec.v
theories/Chat_Props.v
theories/Chatload_Props.v
theories/Client_Model.v
theories/Client_Spec.v
theories/Client_Props.v
theories/Main_Model.v
theories/Main_Spec.v
theories/Main_Props.v
theories/Macro_Model.v
theories/Macro_Spec.v
theories/Macro_Props.v
theories/Palette_Model.v
theories/Palette_Spec.v
theories/Palette_Props.v
theories/Compgen_Model.v
theories/Compgen_Spec.v
theories/Compgen_Props.v
theories/Pick_Model.v
theories/Pick_Spec.v
theories/Pick_Props.v
theories/Opts_Model.v
theories/Opts_Spec.v
theories/Opts_Proofs.v
theories/Opts_Props.v
theories/Outside_Model.v
theories/Outside_Spec.v
theories/Outside_Props.v
theories/Views_Model.v
theories/Views_Spec.v
theories/Views_Props.v
theories/Prompt_Model.v
theories/Prompt_Spec.v
theories/Prompt_Props.v
theories/Runtime_Model.v
theories/Runtime_Spec.v
theories/Runtime_Props.v
theories/Dynamic_Model.v
theories/Dynamic_Spec.v
theories/Dynamic_Compose.v
theories/Dynamic_Cache.v
theories/Dynamic_Words.v
theories/Dynamic_Props.v
theories/Search_Model.v
theories/Search_Spec.v
theories/Search_Props.v
theories/Recall_Model.v
theories/Recall_Spec.v
theories/Recall_Props.v
theories/Notify_Model.v
theories/Notify_Spec.v
theories/Notify_Props.v
theories/Commands_Model.v
theories/Commands_Spec.v
theories/Commands_Props.v
theories/Sources_Model.v
theories/Sources_Spec.v
theories/Sources_Props.v
theories/Known_Model.v
theories/Known_Spec.v
theories/Known_Props.v
theories/Diagnose_Model.v
theories/Diagnose_Spec.v
theories/Diagnose_Props.v
theories/Rawmode_Model.v
theories/Rawmode_Spec.v
theories/Rawmode_Props.v
theories/Schema_Model.v
theories/Schema_Spec.v
theories/Schema_Props.v
theories/Relay_Model.v
theories/Relay_Spec.v
theories/Relay_Props.v
theories/Asked_Model.v
theories/Asked_Spec.v
theories/Asked_Props.v
theories/Doctor_Model.v
theories/Doctor_Spec.v
theories/Doctor_Props.v
theories/Forms_Model.v
theories/Forms_Spec.v
theories/Forms_Props.v
theories/Badge_Model.v
theories/Badge_Spec.v
theories/Badge_Props.v
theories/Limit_Model.v
theories/Limit_Spec.v
theories/Limit_Props.v
theories/Skills_Model.v
theories/Skills_Spec.v
theories/Skills_Props.v
theories/Begin_Model.v
theories/Begin_Spec.v
theories/Begin_Props.v
