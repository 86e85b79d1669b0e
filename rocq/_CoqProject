-Q theories Verif

theories/Base.v
theories/Types.v
theories/Ids_model.v
theories/Ids_spec.v
theories/Ids_proof.v
theories/Ids_props.v
theories/Signals_model.v
theories/Signals_spec.v
theories/Signals_proof.v
theories/Signals_props.v
theories/Stream_model.v
theories/Stream_spec.v
theories/Stream_proof.v
theories/Stream_props.v
theories/Cond_model.v
theories/Cond_spec.v
theories/Cond_proof.v
theories/Cond_props.v
theories/Config_model.v
theories/Config_spec.v
theories/Config_proof.v
theories/Config_props.v
theories/Plugins_model.v
theories/Plugins_spec.v
theories/Plugins_proof.v
theories/Plugins_props.v
theories/Exec_model.v
theories/Exec_spec.v
theories/Step_proof.v
theories/Job_proof.v
theories/Timing_proof.v
theories/Step_props.v
theories/Reg_proof.v
theories/Job_props.v
theories/Workflow_model.v
theories/Workflow_spec.v
theories/Workflow_proof.v
theories/Workflow_inv.v
theories/Workflow_term.v
theories/Workflow_props.v
theories/Sched_model.v
theories/Sched_spec.v
theories/Sched_proof.v
theories/Sched_props.v
theories/Sched32_model.v
theories/Sched32_props.v
theories/Paths_model.v
theories/Paths_spec.v
theories/Paths_proof.v
theories/Paths_props.v
theories/Docker_model.v
theories/Docker_spec.v
theories/Docker_proof.v
theories/Docker_props.v
theories/Runner_model.v
theories/Runner_spec.v
theories/Runner_proof.v
theories/Runner_props.v
theories/Remote_model.v
theories/Remote_spec.v
theories/Remote_proof.v
theories/Remote_props.v
theories/Serde_model.v
theories/Serde_spec.v
theories/Serde_proof.v
theories/Json_model.v
theories/Json_spec.v
theories/Json_proof.v
theories/Json_limit.v
theories/Json_msg.v
theories/Json_props.v
theories/Grammar_spec.v
theories/Grammar_proof.v
theories/Grammar_props.v
theories/Rpc_model.v
theories/Rpc_spec.v
theories/Rpc_props.v
theories/Yaml_model.v
theories/Yaml_spec.v
theories/Yaml_proof.v
theories/Yaml_props.v
theories/Schema_spec.v
theories/Schema_proof.v
theories/Schema_props.v
theories/Setup_model.v
theories/Setup_spec.v
theories/Setup_proof.v
theories/Setup_props.v
theories/Exact_spec.v
theories/Exact_proof.v
theories/Exact_crash.v
theories/Exact_props.v
theories/Text_model.v
theories/Text_spec.v
theories/Text_proof.v
theories/Text_props.v
theories/Pipe_model.v
theories/Pipe_spec.v
theories/Pipe_proof.v
theories/Pipe_live.v
theories/Pipe_props.v
theories/Local_model.v
theories/Local_spec.v
theories/Local_proof.v
theories/Local_live.v
theories/Local_props.v
theories/Distant_model.v
theories/Distant_spec.v
theories/Distant_proof.v
theories/Distant_live.v
theories/Distant_props.v
theories/System_model.v
theories/System_spec.v
theories/System_proof.v
theories/System_flow.v
theories/System_inst.v
theories/System_props.v
theories/Finish_spec.v
theories/Finish_proof.v
theories/Finish_step.v
theories/Finish_cycle.v
theories/Finish_props.v
theories/Worker_model.v
theories/Worker_spec.v
theories/Worker_proof.v
theories/Worker_live.v
theories/Worker_props.v
theories/Rest_props.v
theories/Chain_model.v
theories/Chain_spec.v
theories/Chain_proof.v
theories/Chain_props.v
theories/Times_spec.v
theories/Times_proof.v
theories/Times_flow.v
theories/Times_props.v
theories/Outcome_spec.v
theories/Outcome_proof.v
theories/Outcome_props.v
theories/Reach_spec.v
theories/Reach_proof.v
theories/Reach_props.v
theories/Whole_spec.v
theories/Whole_props.v
theories/Spawn_model.v
theories/Spawn_props.v
theories/Github_model.v
theories/Github_spec.v
theories/Github_props.v
theories/Pace_spec.v
theories/Pace_proof.v
theories/Pace_step.v
theories/Pace_chain.v
theories/Pace_props.v
theories/Fleet_model.v
theories/Fleet_spec.v
theories/Fleet_proof.v
theories/Fleet_iso.v
theories/Fleet_main.v
theories/Fleet_props.v
theories/Live_spec.v
theories/Live_proof.v
theories/Live_props.v
theories/Each_spec.v
theories/Each_proof.v
theories/Each_props.v
theories/Drop_model.v
theories/Drop_spec.v
theories/Drop_proof.v
theories/Drop_props.v
theories/Dispatch_model.v
theories/Dispatch_spec.v
theories/Dispatch_proof.v
theories/Dispatch_main.v
theories/Dispatch_props.v
theories/Farm_model.v
theories/Farm_spec.v
theories/Farm_place.v
theories/Farm_proof.v
theories/Farm_main.v
theories/Farm_serve.v
theories/Process_spec.v
theories/Process_proof.v
theories/Process_props.v
theories/Chainproc_spec.v
theories/Chainproc_proof.v
theories/Chainproc_props.v
theories/Farm_props.v
theories/Placed_spec.v
theories/Placed_proof.v
theories/Placed_props.v
theories/Machine_spec.v
theories/Machine_props.v
theories/Farmproc_spec.v
theories/Farmproc_props.v
theories/Settled_spec.v
theories/Settled_proof.v
theories/Settled_props.v
theories/Farsettled_props.v
theories/Under_props.v
theories/Farunder_props.v
theories/Views_model.v
theories/Views_spec.v
theories/Views_proof.v
theories/Views_props.v
theories/Conform_unit.v
theories/Conform_config.v
theories/Conform_runs.v
theories/Conform_runner.v
theories/Conform_engine.v
theories/Farmlive_spec.v
theories/Farmlive_proof.v
theories/Farmlive_props.v
theories/Unplaced_props.v
theories/Conform_remote.v
