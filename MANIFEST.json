{
 "claims": [
  {
   "property": "C01",
   "status": "proved",
   "theorems": [
    "C01_variable_ids_never_collide"
   ],
   "note": "Every history, also with failing calls."
  },
  {
   "property": "C02",
   "status": "partial",
   "theorems": [
    "C02_constraint_ids_never_collide_partial",
    "C02_refuted"
   ],
   "note": "Holds for histories without an empty generic constraint table; refuted with one (the next id becomes NaN)."
  },
  {
   "property": "C03",
   "status": "partial",
   "theorems": [
    "C03_rejected_table_changes_nothing_partial",
    "C03_rejected_costs_leave_hard_constraints",
    "C03_refuted"
   ],
   "note": "Proved for every call, market and table except a rejected table of violation costs: that one is validated after the group is saved, and the call has then done what it does without violation costs (proved), which changes the linear program (C03_refuted)."
  },
  {
   "property": "C04",
   "status": "proved",
   "theorems": [
    "C04_accepts_exactly_well_formed",
    "C04_error_of_the_fault",
    "C04_every_table_described_properly",
    "C04_call_rejects_exactly_faulty_tables",
    "C04_constructor"
   ],
   "note": "Validator model on frames with typed columns; the tables of every call and of the constructor are covered. Cells are texts, integers, floats, infinities, NaN, functions or other objects."
  },
  {
   "property": "C05",
   "status": "proved",
   "theorems": [
    "C05_dispatch_within_bids",
    "C05_dispatch_not_negative"
   ],
   "note": "for every market reached by any history of calls in which the volume table is the last one set"
  },
  {
   "property": "C06",
   "status": "proved",
   "theorems": [
    "C06_energy_balance",
    "C06_unsupplied_region_dropped"
   ],
   "note": "Holds for every reachable market. A region without any variable has its constraint dropped, shown separately."
  },
  {
   "property": "C07",
   "status": "proved",
   "theorems": [
    "C07_capacity_limits",
    "C07_forecast_limits",
    "C07_unlisted_side_is_not_limited"
   ],
   "note": "Calls without violation cost (elastic limits are C19). The third theorem shows that the condition on unit_info is needed."
  },
  {
   "property": "C08",
   "status": "proved",
   "theorems": [
    "C08_ramp_limits",
    "C08_own_scada_columns_refuted"
   ],
   "note": "For run type no_fast_start_units; fast start runs are C29. The second theorem shows that the condition on the columns is needed."
  },
  {
   "property": "C09",
   "status": "proved",
   "theorems": [
    "C09_composite_up_rate",
    "C09_composite_down_rate",
    "C09_limit_unique",
    "C09_mirror",
    "C09_limit_monotone",
    "C09_limit_continuous",
    "C09_bidirectional_ramp_limits"
   ],
   "note": "Rates against a two-phase description of the ramp; the constraint holds in every feasible solution after any history."
  },
  {
   "property": "C10",
   "status": "proved",
   "theorems": [
    "C10_requirement_met",
    "C10_requirement_met_unlinked",
    "C10_unoffered_requirement_dropped"
   ],
   "note": "A set that no variable belongs to is dropped, shown separately."
  },
  {
   "property": "C11",
   "status": "proved",
   "theorems": [
    "C11_max_availability"
   ],
   "note": "Every history in which the call stands."
  },
  {
   "property": "C12",
   "status": "proved",
   "theorems": [
    "C12_joint_ramping",
    "C12_one_sided_bids_refuted"
   ],
   "note": "a bidirectional unit bidding the regulation on one side only escapes the limit: C12_one_sided_bids_refuted"
  },
  {
   "property": "C13",
   "status": "partial",
   "theorems": [
    "C13_joint_capacity",
    "C13_inside_trapezium",
    "C13_bidirectional_partial",
    "C13_bidirectional_lower_refuted",
    "C13_bidirectional_load_refuted"
   ],
   "note": "proved for ordinary units; false of the code for bidirectional units: the load side lower regulation has the wrong sign (fcas_constraints.py line 301) and load side trapeziums double count load energy"
  },
  {
   "property": "C14",
   "status": "proved",
   "theorems": [
    "C14_energy_and_regulation",
    "C14_inside_trapezium",
    "C14_nothing_else_excluded"
   ],
   "note": "both directions: the constraints put the point in the trapezium and exclude nothing inside it"
  },
  {
   "property": "C15",
   "status": "proved",
   "theorems": [
    "C15_flow_limits",
    "C15_regional_effect"
   ],
   "note": "Flows within limits and exact effect of a flow on every regional balance."
  },
  {
   "property": "C16",
   "status": "proved",
   "theorems": [
    "C16_loss_interpolation"
   ],
   "note": "Adjacent break points bracket the flow and the loss is interpolated between them."
  },
  {
   "property": "C17",
   "status": "proved",
   "theorems": [
    "C17_loss_shares",
    "C17_losses_complete",
    "C17_self_link_refuted"
   ],
   "note": "Exact effect of a loss on every regional balance; a link from a region to itself is outside the quantifier and fails, shown separately."
  },
  {
   "property": "C18",
   "status": "proved",
   "theorems": [
    "C18_loss_functions",
    "C18_vanishes_at_zero",
    "C18_marginal_loss",
    "C18_interpolation_error",
    "C18_break_points",
    "C18_dispatch_losses",
    "C18_other_factors_refuted",
    "C18_fraction_refuted"
   ],
   "note": "The functions of every link, their slope, the chord error and the losses of every dispatch solved with the tables. Links whose factor is not 1 or -1 are outside the claim and get the losses of other flows (refuted)."
  },
  {
   "property": "C19",
   "status": "proved",
   "theorems": [
    "C19_always_satisfiable",
    "C19_zero_violation_is_original",
    "C19_dropped_constraint_revived"
   ],
   "note": "The last theorem shows the side condition of the second is needed."
  },
  {
   "property": "C20",
   "status": "proved",
   "theorems": [
    "C20_violation_exact",
    "C20_violation_degree"
   ],
   "note": ""
  },
  {
   "property": "C21",
   "status": "proved",
   "theorems": [
    "C21_price_order"
   ],
   "note": "For every priced market without tie-break rows and every optimal solution."
  },
  {
   "property": "C22",
   "status": "proved",
   "theorems": [
    "C22_merit_order",
    "C22_merit_order_services"
   ],
   "note": "Any market without unit level constraint maps, unit links and tie-break; interconnectors and requirement sets allowed."
  },
  {
   "property": "C23",
   "status": "proved",
   "theorems": [
    "C23_objective",
    "C23_unscale_round_trip"
   ],
   "note": "Objective as a sum over bids plus violation costs; round trip through _unscale_price_bids for nonzero loss factors."
  },
  {
   "property": "C24",
   "status": "proved",
   "theorems": [
    "C24_priced_and_located",
    "C24_unpriced_band_refuted",
    "C24_unregistered_band_refuted"
   ],
   "note": "Proved for bands with a price bid and a registered dispatch type; the two refutations show that both conditions are needed."
  },
  {
   "property": "C25",
   "status": "partial",
   "theorems": [
    "C25_second_call_replaces_partial",
    "C25_one_group_replaced_partial",
    "C25_tables_overwritten_partial",
    "C25_elastic_first_refuted",
    "C25_stale_ramp_rates_refuted",
    "C25_stale_fast_start_refuted",
    "C25_other_methods_refuted"
   ],
   "note": "Proved for any reached market when the second call alone sets the groups and violation variables the first one sets (for one-group methods: first call inelastic or second call with a numerical cost), and for prices and links without condition. False in general: an elastic call followed by an inelastic one, a second ramp table without bidirectional units, a second fast start table with nothing to constrain, volume bids set again after prices, interconnectors set again after losses; each shown by a concrete market."
  },
  {
   "property": "C26",
   "status": "proved",
   "theorems": [
    "C26_removal_undoes",
    "C26_removal_restores",
    "C26_removal_of_nothing",
    "C26_removal_clears"
   ],
   "note": "For every reached market without fast start constraints and any sequence of calls about fast start constraints."
  },
  {
   "property": "C27",
   "status": "proved",
   "theorems": [
    "C27_profile_limits",
    "C27_targets_in_range",
    "C27_profile_continuous"
   ],
   "note": ""
  },
  {
   "property": "C28",
   "status": "proved",
   "theorems": [
    "C28_process",
    "C28_one_outcome",
    "C28_rows",
    "C28_modes",
    "C28_mode_two_target",
    "C28_overrun_refuted"
   ],
   "note": "The modes follow a small process in time; over-runs of the current mode are shown to give a time since mode 2 longer than the interval."
  },
  {
   "property": "C29",
   "status": "proved",
   "theorems": [
    "C29_first_run",
    "C29_second_run"
   ],
   "note": ""
  },
  {
   "property": "C30",
   "status": "partial",
   "theorems": [
    "C30_amount",
    "C30_others_stay",
    "C30_original_meets_partial",
    "C30_equality_refuted",
    "C30_small_violations_refuted"
   ],
   "note": "Amount and direction for inequalities, nothing else moves, the original dispatch without violations meets the re-run when no equality is violated. The claim is false for violated equalities (overshoot 0.01) and for groups whose violations are all at most 0.0001."
  },
  {
   "property": "C31",
   "status": "partial",
   "theorems": [
    "C31_dispatch_remains_partial",
    "C31_uneven_points_refuted"
   ],
   "note": "Proved where no gap between neighbouring break points is longer than the next two gaps on a side together; false without that, with a witness."
  },
  {
   "property": "C32",
   "status": "proved",
   "theorems": [
    "C32_one_way",
    "C15_flow_limits",
    "C16_loss_interpolation",
    "C32_generic_factor",
    "C32_flows_reported",
    "C32_same_name_both_ways"
   ],
   "note": "C32_same_name_both_ways shows that the condition on link names is needed."
  },
  {
   "property": "C33",
   "status": "partial",
   "theorems": [
    "C33_tied_pairs",
    "C33_one_each_partial",
    "C33_every_pair_refuted"
   ],
   "note": "Every constraint is for a tied pair and every pair of tied bids has one, up to the text the code uses to tell pairs apart; that text is the sorted unit and band names run together, so two pairs of crosswise priced bands share one constraint (refuted)."
  },
  {
   "property": "C34",
   "status": "proved",
   "theorems": [
    "C34_generic_constraints",
    "C34_region_link_adds_loads"
   ],
   "note": "Region links count loads like generators, shown separately."
  },
  {
   "property": "C35",
   "status": "proved",
   "theorems": [
    "C35_unit_dispatch",
    "C35_totals",
    "C35_net_dispatch"
   ],
   "note": ""
  },
  {
   "property": "C36",
   "status": "partial",
   "theorems": [
    "C36_summary_balances_partial",
    "C36_imbalance",
    "C36_regions_partial",
    "C36_balance_refuted",
    "C36_regions_refuted"
   ],
   "note": "The full statement is false of the code: a sending end with a loss factor other than one unbalances its row (C36_imbalance gives the exact amount), and a region without interconnectors or losses is left out."
  },
  {
   "property": "C37",
   "status": "partial",
   "theorems": [
    "C37_prices",
    "C37_availability_partial",
    "C37_availability_refuted"
   ],
   "note": "The price part is proved in full. The availability part is false of the code for bidirectional units: their joint ramping constraints are not looked at."
  },
  {
   "property": "C38",
   "status": "proved",
   "theorems": [
    "C38_days",
    "C38_number",
    "C38_unique",
    "C38_ends",
    "C38_next",
    "C38_names",
    "C38_file",
    "C38_rerun",
    "C38_absent_refuted"
   ],
   "note": "For every five minute time of the calendar from year 2 on and every set of files. C38_absent_refuted: an interval outside the cache is said to be a re-run, which the statement leaves open."
  },
  {
   "property": "C39",
   "status": "partial",
   "theorems": [
    "C39_success_partial",
    "C39_failure",
    "C39_missing",
    "C39_failure_refuted",
    "C39_search",
    "C39_search_own"
   ],
   "note": "Holds after every history that ends in a successful load, provided the files in the folder hold the data of the interval in their name. After a failed load the manager is at the new interval with the data of the old one (C39_failure_refuted). The search for violations is not affected (C39_search)."
  },
  {
   "property": "C40",
   "status": "proved",
   "theorems": [
    "C40_stamp",
    "C40_effective",
    "C40_entries",
    "C40_used",
    "C40_started",
    "C40_day",
    "C40_time",
    "C40_matched",
    "C40_text_version_refuted",
    "C40_ended_refuted"
   ],
   "note": "SQLite is modelled as joins, filters and maxima over lists. Outside the statement: versions stored as text are not ordered as numbers (C40_text_version_refuted), and rows whose END_DATE has passed are returned against the documentation (C40_ended_refuted)."
  },
  {
   "property": "C41",
   "status": "proved",
   "theorems": [
    "C41_months",
    "C41_late_start",
    "C41_order_refuted"
   ],
   "note": "C41_order_refuted: with a start more than two months after the end of the same year the rest of the year is requested."
  },
  {
   "property": "C42",
   "status": "proved",
   "theorems": [
    "C42_agc",
    "C42_agc_kept",
    "C42_ramp",
    "C42_ramp_kept",
    "C42_uigf",
    "C42_uigf_kept",
    "C42_all_steps",
    "C42_negative_limits_refuted",
    "C42_no_limits_refuted",
    "C42_no_regulation_refuted"
   ],
   "note": "Each scaling and the three together, with slopes kept in cross-multiplied form; ramp rates must not be negative. The refuted theorems show what the code does at the edges: non-positive AGC limits do not count, a unit without a row of AGC limits loses its regulation offers, and offers without a regulation offer to scale raise an exception."
  },
  {
   "property": "C43",
   "status": "proved",
   "theorems": [
    "C43_volumes",
    "C43_prices",
    "C43_process",
    "C43_energy",
    "C43_forecast",
    "C43_rounding"
   ],
   "note": "Exact condition for every kind of unit, for the step alone and inside the whole processing."
  },
  {
   "property": "C44",
   "status": "proved",
   "theorems": [
    "C44_expression",
    "C44_moves",
    "C44_linear",
    "C44_groups",
    "C44_choice",
    "C44_choice_by_input",
    "C44_groups_end",
    "C44_repeat",
    "C44_list",
    "C44_last_group_refuted"
   ],
   "note": "Expressions with the operators of the stack and defaults of inputs, moves on the stack, sums, groups with a factor, the choice by POP and EXLEZ, independence of earlier evaluations. A group that ends an equation without a factor term raises IndexError (refuted case)."
  },
  {
   "property": "C45",
   "status": "partial",
   "theorems": [
    "C45_unrelated",
    "C45_unlisted_partial",
    "C45_listed",
    "C45_nested_refuted"
   ],
   "note": "Constraints that do not lead to the input are unchanged. The list is complete only if generic equations do not refer to each other; with nested generic equations it misses constraints (refuted case)."
  },
  {
   "property": "C46",
   "status": "proved",
   "theorems": [
    "C46_loads",
    "C46_partition",
    "C46_generic",
    "C46_generic_once",
    "C46_fcas",
    "C46_factor_refuted",
    "C46_repeated_refuted"
   ],
   "note": "For case files whose constraint ids are not repeated. The factors of regional terms are dropped from the requirements (refuted case), and a repeated id is treated as regional throughout (refuted case)."
  },
  {
   "property": "C47",
   "status": "partial",
   "theorems": [
    "C47_rows_partial",
    "C47_market_partial",
    "C47_seed",
    "C47_bidirectional_refuted",
    "C47_missing_rate_refuted"
   ],
   "note": "True where every unit has at most one row of energy dispatch and no rate is missing; bidirectional units and missing rates break it, with witnesses."
  },
  {
   "property": "C48",
   "status": "partial",
   "theorems": [
    "C48_passed_again_partial",
    "C48_refused_again",
    "C48_refuted",
    "C48_unit_information_again",
    "C48_unit_information_refuted"
   ],
   "note": "True of all tables but unit limits, the forecast, and bids and ramp rates in a market that does not ask for dispatch types; those are always rejected the second time (C48_refused_again). Unit information passed again flips the demand for dispatch types."
  },
  {
   "property": "C49",
   "status": "partial",
   "theorems": [
    "C49_months",
    "C49_days_partial",
    "C49_days_refuted"
   ],
   "note": "Proved for months. A range of days misses the intervals after 04:00 of the last day (C49_days_partial says exactly which are covered, C49_days_refuted gives one that is not). An archive is asked for unless the file of midnight is already in the folder."
  },
  {
   "property": "C50",
   "status": "partial",
   "theorems": [
    "C50_months",
    "C50_complete",
    "C50_history",
    "C50_history_none",
    "C50_exact_columns_refuted"
   ],
   "note": "Missing: a file with exactly the columns of the table is passed over (C50_exact_columns_refuted), so C50_history is stated for files that have a further column."
  },
  {
   "property": "C51",
   "status": "proved",
   "theorems": [
    "C51_definitions",
    "C51_regulated_present",
    "C51_market_links_present"
   ],
   "note": "Both directions: every definition comes from the tables, and every interconnector or link with the needed rows has its definition."
  },
  {
   "property": "C52",
   "status": "partial",
   "theorems": [
    "C52_rows_partial",
    "C52_carried_over",
    "C52_refuted"
   ],
   "note": "Every trade is one row with its unit, market, direction and numbers. Missing: where a trade does not have an attribute its column is not empty but holds the number of the column before it (xml_cache.py 433-444 appends the last value), proved exactly in C52_carried_over and shown against the claim in C52_refuted; the output in the docstring shows it."
  },
  {
   "property": "C53",
   "status": "partial",
   "theorems": [
    "C53_rows_partial",
    "C53_gaps",
    "C53_refuted"
   ],
   "note": "Every trade is one row with its unit, market, direction and prices. Missing: where a trade has neither a band nor a direction the word GEN or LOAD is written in the column of the price (xml_cache.py 529-533 do not ask which attribute is missing), proved exactly in C53_gaps and shown in C53_refuted."
  },
  {
   "property": "C54",
   "status": "proved",
   "theorems": [
    "C54_initial",
    "C54_intervention",
    "C54_fast_start",
    "C54_forecasts",
    "C54_mixed"
   ],
   "note": "C54_mixed shows that initial conditions and fast start modes choose between measured and what-if values by different tests, so that the two can be of different runs."
  },
  {
   "property": "C55",
   "status": "proved",
   "theorems": [
    "C55_constraints",
    "C55_links"
   ],
   "note": "The tables are those of the record of the case file that C46 starts from, so C46 holds of the document."
  },
  {
   "property": "C56",
   "status": "proved",
   "theorems": [
    "C56_violations",
    "C56_prices"
   ],
   "note": ""
  },
  {
   "property": "C57",
   "status": "partial",
   "theorems": [
    "C57_rows_partial",
    "C57_refuted_name",
    "C57_refuted_twice"
   ],
   "note": "Every price under a name that is looked for is one row. Missing: the name looked for of the lower five minute price is RL5Price (xml_cache.py 1163), and in a period with an intervention both runs are read, so that a region has two prices."
  },
  {
   "property": "C58",
   "status": "proved",
   "theorems": [
    "C58_rows",
    "C58_once",
    "C58_always"
   ],
   "note": "Rows characterised both ways, without repeats; the call never fails when the directions are known."
  },
  {
   "property": "C59",
   "status": "proved",
   "theorems": [
    "C59_volumes",
    "C59_prices",
    "C59_energy",
    "C59_fcas",
    "C59_keys",
    "C59_cost",
    "C59_dispatch"
   ],
   "note": "Rows characterised both ways; costs in the objective and energy dispatch end to end from the file through the market."
  },
  {
   "property": "C60",
   "status": "partial",
   "theorems": [
    "C60_order",
    "C60_rows",
    "C60_limits",
    "C60_bids",
    "C60_bids_refuted"
   ],
   "note": "Everything but the last clause holds. Trapeziums are not filtered by the unit info as the bids are: a unit without details has a trapezium and no bid, and the market rejects the whole table. Units with details always have the bid (C60_bids)."
  },
  {
   "property": "C61",
   "status": "proved",
   "theorems": [
    "C61_availability",
    "C61_bid_rates",
    "C61_scada"
   ],
   "note": "Rows characterised both ways, without repeats."
  },
  {
   "property": "C62",
   "status": "partial",
   "theorems": [
    "C62_rows",
    "C62_paired",
    "C62_missing_price",
    "C62_one_each_refuted"
   ],
   "note": "Rows characterised for all tables. A volume bid without a direction of a unit with price bids in both directions is given twice (refuted). One energy volume bid without a price bid makes the availability and the processed bids fail for all units (C62_missing_price)."
  },
  {
   "property": "C63",
   "status": "proved",
   "theorems": [
    "C63_set_up",
    "C63_values",
    "C63_equations",
    "C63_sum",
    "C63_stated",
    "C63_no_generic",
    "C63_single_refuted",
    "C63_all_bad_refuted"
   ],
   "note": "The calculator of right hand sides takes its inputs and equations from the case file as they are there, and values marked bad count like good ones. Outside the quantifier: a case file with a single entered value raises TypeError, and a SCADA type with only bad values raises KeyError; both are proved as refutations."
  },
  {
   "property": "C64",
   "status": "proved",
   "theorems": [
    "C64_load",
    "C64_belong",
    "C64_energy_cost",
    "C64_fcas_cost",
    "C64_bands",
    "C64_capacity",
    "C64_forecast",
    "C64_ramp"
   ],
   "note": "End to end from the elements of the document to costs and limits of the solved market. Bands below 0.0001 MW have no variable (C05, C24). A two-way unit's ramp limits are C09."
  },
  {
   "property": "C65",
   "status": "proved",
   "theorems": [
    "C65_load",
    "C65_generic",
    "C65_regional"
   ],
   "note": "Composes C55, C46, C34 and C10: from the document to the dispatch. Constraints none of whose terms stands for a variable of the market are dropped by the code and are outside the claim."
  },
  {
   "property": "C66",
   "status": "proved",
   "theorems": [
    "C66_capacity",
    "C66_violation_needed",
    "C66_forecast",
    "C66_ramp",
    "C66_bidirectional_ramp",
    "C66_max_availability",
    "C66_joint_ramping",
    "C66_joint_capacity",
    "C66_inside_trapezium",
    "C66_energy_and_regulation",
    "C66_inside_regulation_trapezium",
    "C66_fast_start",
    "C66_fast_start_first_run",
    "C66_fast_start_second_run",
    "C66_energy_balance",
    "C66_requirement",
    "C66_generic",
    "C66_case_generic",
    "C66_case_regional"
   ],
   "note": "Every theorem about constraints without violation costs (C06-C14, C27, C29, C34, C65) holds for elastic constraints with zero violation variables; C66_violation_needed shows that the zero is needed."
  },
  {
   "property": "C67",
   "status": "proved",
   "theorems": [
    "C67_energy_price_is_marginal",
    "C67_energy_prices_together",
    "C67_fcas_price_is_marginal",
    "C67_prices_of_the_dispatch_problem",
    "C67_prices_of_the_dispatch_constraints"
   ],
   "note": "Shadow prices are specified (SpecDual), not computed: the solver is assumed to return them."
  },
  {
   "property": "C68",
   "status": "proved",
   "theorems": [
    "C68_energy_bids_follow_price",
    "C68_fcas_bids_follow_price"
   ],
   "note": "Shadow prices as specified in SpecDual."
  },
  {
   "property": "C69",
   "status": "proved",
   "theorems": [
    "C69_no_arbitrage",
    "C69_link_no_arbitrage",
    "C69_free_link_equal_prices"
   ],
   "note": "Shadow prices as specified in SpecDual."
  },
  {
   "property": "C70",
   "status": "proved",
   "theorems": [
    "C70_violation_cost_caps_price",
    "C70_energy_price_capped"
   ],
   "note": "Shadow prices as specified in SpecDual."
  },
  {
   "property": "C71",
   "status": "partial",
   "theorems": [
    "C71_prices_exact_partial",
    "C71_supplied_demand_partial",
    "C71_offered_reserve_partial",
    "C71_elastic_groups_priced_partial",
    "C71_unsupplied_region_refuted",
    "C71_unoffered_reserve_refuted"
   ],
   "note": "False as stated: for demand in a region without units and links, or a requirement nobody offers, no constraint is added to the model; dispatch solves the problem and then raises AttributeError when it reads the price. Proved: exactly when prices are found, that supplied demand, offered requirements and elastic groups are always priced."
  },
  {
   "property": "C72",
   "status": "proved",
   "theorems": [
    "C72_dispatch_records_optimum",
    "C72_rerun_prices_when_due",
    "C72_exceptions"
   ],
   "note": "The solver is a parameter of the model, specified in SpecSolver. What python-mip reports for prices when the linear problem has no solution is not modelled; dispatch then stops in the model."
  },
  {
   "property": "C73",
   "status": "partial",
   "theorems": [
    "C73_named_constraints_partial",
    "C73_harmless_constraint_named_refuted"
   ],
   "note": "Proved: the constraints named are the shortest run from the first constraint on whose removal helps. Refuted: that each is in the way; constraints are never put back, so harmless earlier ones are named too."
  },
  {
   "property": "C74",
   "status": "partial",
   "theorems": [
    "C74_lossless_prices_partial",
    "C74_lossless_bids_follow_price_partial",
    "C74_same_cost_prices_partial",
    "C74_losses_detach_prices_refuted"
   ],
   "note": "Proved for markets without losses and special ordered sets, and with losses whenever the linear solution costs what the dispatch costs (it never costs more). Refuted with losses and negative prices."
  },
  {
   "property": "C75",
   "status": "proved",
   "theorems": [
    "C75_no_gain",
    "C75_no_gain_energy",
    "C75_no_loss",
    "C75_recorded_dispatch"
   ],
   "note": "Prices are those of energy_prices and fcas_prices for the duals of the problem priced; C75_recorded_dispatch ties them to what dispatch records when there are no losses and no special ordered sets."
  },
  {
   "property": "C76",
   "status": "proved",
   "theorems": [
    "C76_cost_between_prices",
    "C76_price_does_not_fall",
    "C76_recorded"
   ],
   "note": "Setting demand again replaces only the energy balance rows (fresh constraint ids), so each run's solution is a competitor in the other; the two marginal-cost inequalities bracket the cost change. Example: NSW demand 120 to 150 moves the price 45 to 50."
  },
  {
   "property": "C77",
   "status": "proved",
   "theorems": [
    "C77_variables_and_costs_kept",
    "C77_other_constraints_kept",
    "C77_new_limits_never_cheaper",
    "C77_met_limits_keep_optimum",
    "C77_recorded_never_cheaper"
   ],
   "note": "All methods at once, through the list of groups each call writes; rows of other groups keep their left-hand sides because constraint ids have one owner. Examples: a capacity limit that binds, one that does not, demand set again."
  },
  {
   "property": "C78",
   "status": "proved",
   "theorems": [
    "C78_order_does_not_matter",
    "C78_two_calls"
   ],
   "note": "By exchanging neighbouring calls about different groups: the two markets are renumberings of each other (a permutation of constraint ids and of violation variables), and a renumbered market dispatches alike. The order of calls about the same group does matter (C78_same_group_case)."
  },
  {
   "property": "C79",
   "status": "proved",
   "theorems": [
    "C79_exactly_the_rules",
    "C79_infeasible_only_if_contradictory"
   ],
   "note": "Both directions, for whole histories. The rules of the calls are in SpecExact.v (obeys); what the history excludes is in in_scope there. Bidirectional units are included in ramp limits (net output moving through zero) and joint ramping. The example has all kinds of constraints, a bidirectional unit and two interconnectors."
  },
  {
   "property": "C80",
   "status": "proved",
   "theorems": [
    "C80_call_does_what_the_tables_say",
    "C80_accepted_call_does_what_the_tables_say",
    "C80_every_call_answered",
    "C80_history",
    "C80_constructor",
    "C80_constructor_answers"
   ],
   "note": "SpecTables.v states for every table what its rows say, on the cells the caller passes in. The joint ramping table must have no nulls for the answer to be given (nulls in it are not modelled)."
  },
  {
   "property": "C81",
   "status": "partial",
   "theorems": [
    "C81_documented_tables_partial",
    "C81_corrected_documentation",
    "C81_corrected_unit_information",
    "C81_accepted_as_documented",
    "C81_accepted_unit_information",
    "C81_fast_start_refuted",
    "C81_loss_segment_refuted",
    "C81_optional_rates_refuted",
    "C81_time_since_mode_two_refuted",
    "C81_unit_information_refuted"
   ],
   "note": "False of the code for five tables: the lengths and times of set_fast_start_constraints (markets.py:991-999) and the time since mode two (markets.py:792) are documented as integers but must be floats; loss_segment (markets.py:2178) is documented as float but must be an integer; the SCADA rates of set_joint_ramping_constraints_reg (markets.py:1441-1446) are documented as optional but must be there; loss_factor of unit_info (markets.py:66) is documented as np.int64 but must be float. With the documentation put right it holds of every call; accepted tables have the documented columns but for link, generic_constraint_factor and SCADA rates in the bid ramp rate table, which are taken and not documented."
  },
  {
   "property": "C82",
   "status": "proved",
   "theorems": [
    "C82_cost_change",
    "C82_law_of_supply",
    "C82_dearer_bids",
    "C82_recorded"
   ],
   "note": "Histories that set tie-break constraints after the price bids are left out: these constraints depend on the prices."
  },
  {
   "property": "C83",
   "status": "proved",
   "theorems": [
    "C83_same_dispatch",
    "C83_same_optimum",
    "C83_disagreeing_rows_refuted"
   ],
   "note": "Feasible dispatch, costs and optima of any two histories that make the same calls in other row and call orders coincide, with and without interconnector losses. C83_disagreeing_rows_refuted shows why the rows of a requirement set have to agree."
  },
  {
   "property": "C84",
   "status": "proved",
   "theorems": [
    "C84_hard_rules_suffice",
    "C84_no_cheaper",
    "C84_optimum_weighs",
    "C84_minimum_is_optimum",
    "C84_negative_cost_unbounded"
   ],
   "note": "Over any set of elastic groups at once. C84_hard_rules_suffice and C84_no_cheaper give the value of the best completion; C84_optimum_weighs and C84_minimum_is_optimum the equivalence of the two minimisations. C84_negative_cost_unbounded shows why costs below zero are excluded."
  },
  {
   "property": "C85",
   "status": "proved",
   "theorems": [
    "C85_consecutive_intervals",
    "C85_whole_sequence"
   ],
   "note": "By induction over the intervals; the report, the ramp table and the ramp constraints are composed. Ramp constraints with a violation cost may be missed at that cost (C84) and are not covered."
  },
  {
   "property": "C86",
   "status": "partial",
   "theorems": [
    "C86_names_partial",
    "C86_bid_ramp_rates_refuted",
    "C86_initial_output_twice_refuted"
   ],
   "note": "Holds for tables without initial outputs. get_bid_ramp_rates already returns the column initial_output, so that the merge yields initial_output_x and initial_output_y and every market refuses the table; the example time_sequential.py does exactly this."
  },
  {
   "property": "C87",
   "status": "proved",
   "theorems": [
    "C87_exactly_the_hard_rules",
    "C87_infeasible_only_if_hard_rules_clash",
    "C87_optimum",
    "C87_cheapest_is_optimum"
   ],
   "note": "Generalises C79 (no elastic groups) and makes the hard part of C84 explicit. A call whose groups are only partly elastic is outside the scope (condition together)."
  },
  {
   "property": "C88",
   "status": "proved",
   "theorems": [
    "C88_exactly_the_rules",
    "C88_infeasible_only_if_rules_clash",
    "C88_optimum",
    "C88_cheapest_is_optimum"
   ],
   "note": "Exactness of C79/C87 extended to interconnector losses: the problem projected away from the interpolation weights is the rules of the hard calls; optima are exactly the cheapest dispatch under these rules. The loss is bounded by max(|min|,|max|) of the flow limits because the code bounds the loss variable so."
  },
  {
   "property": "C89",
   "status": "partial",
   "theorems": [
    "C89_accepted_exactly",
    "C89_refused_changes_nothing",
    "C89_unknown_constraints",
    "C89_two_costs_refuted",
    "C89_answers_refuted"
   ],
   "note": "Proved: acceptance is exactly 'number, or table without equal rows for fcas/generic'; a refusal changes nothing. Missing because false of the code: one row per set (the validator compares set and cost together, so two costs for one set pass and the cheaper one decides), MissingColumnError and ValueError (both KeyError: the ValueError is created but not raised, markets.py:2733)."
  },
  {
   "property": "C90",
   "status": "proved",
   "theorems": [
    "C90_any_solver",
    "C90_any_order",
    "C90_found_in_any_order"
   ],
   "note": "The first theorem covers every reached market. The order theorems cover calls without violation costs. Rounding and solver tolerances are outside the model. With a tie the recorded dispatch does depend on the solver: the example shows it."
  },
  {
   "property": "C91",
   "status": "proved",
   "theorems": [
    "C91_dispatch_stays_possible",
    "C91_optimum_not_dearer",
    "C91_recorded_not_dearer",
    "C91_volume_from_nothing_refuted"
   ],
   "note": "The condition on dropped bands is needed: the last theorem shows a unit that is free of its ramp limits as long as it offers no volume, and a market without any dispatch once it offers some. Trapeziums, fast start profiles and the ramp rates of bidirectional units with two rows are kept the same on both sides."
  },
  {
   "property": "C92",
   "status": "partial",
   "theorems": [
    "C92_rising_bands_in_order_partial",
    "C92_prices_never_refused",
    "C92_falling_accepted_everywhere",
    "C92_refuted"
   ],
   "note": "Code bug: the schema of price bids names the columns that have to rise (markets.py:408) and the documentation promises BidsNotMonotonicIncreasing (markets.py:394-395), but DataFrameSchema.validate never calls _check_row_monatonic_increasing (dataframe_validator.py:18-32, 39-46). Proved: whether a table is accepted does not depend on its prices at all, every market that takes prices for two bands takes falling ones, and with prices that do rise the bands are used in order. The method that is never called is not modelled; as written it selects all ten band columns, so calling it would raise KeyError for tables with fewer bands, and it uses Series.is_monotonic, which pandas 2 no longer has."
  },
  {
   "property": "C93",
   "status": "partial",
   "theorems": [
    "C93_bad_values_refused_partial",
    "C93_unit_information",
    "C93_refuted",
    "C93_null_refuted",
    "C93_losses_first_refuted"
   ],
   "note": "Code and documentation disagree. Documented as errors but taken: negative or null capacities and forecasts, negative ramp rates and initial outputs, negative demands, negative reserve requirements, negative or null rates in the joint ramping table, negative break points of trapeziums, and loss shares above 1.0. Negative demands, break points and initial outputs do make sense for some regions and units, so there the docstring is what is wrong. set_interconnector_losses builds its ModelBuildError but lacks the raise (markets.py:2204-2205): proved that it never ends with that error on a market without interconnectors, it ends with an AttributeError instead. Every other documented rule is proved to be checked."
  },
  {
   "property": "C94",
   "status": "partial",
   "theorems": [
    "C94_nothing_set_partial",
    "C94_bids_suffice",
    "C94_prices_key_error",
    "C94_refuted"
   ],
   "note": "Code and documentation disagree. The docstrings of dispatch, get_unit_dispatch and get_energy_prices list a ModelBuildError for energy bids without energy demand (markets.py:2932-2933, 3243-3244, 3318-3319), but dispatch only checks that there is some decision variable (markets.py:3007-3012). Proved: a new market is refused with that error; once volume bids are set the problem is never refused with it, whatever else is missing; without a demand call get_energy_prices ends with a KeyError. Example of a market without demand where dispatch records 80 MW at a negative price for nobody."
  },
  {
   "property": "C95",
   "status": "proved",
   "theorems": [
    "C95_cost_between_prices",
    "C95_price_does_not_fall",
    "C95_recorded"
   ],
   "note": "The change of the cost lies between the change of the requirement at the old and at the new price of the set, so a higher requirement never lowers the set's price; also for what dispatch records without losses. Sets may cover several regions and services and share offers with other sets."
  },
  {
   "property": "C96",
   "status": "partial",
   "theorems": [
    "C96_defined_partial",
    "C96_missing",
    "C96_limits",
    "C96_refuted"
   ],
   "note": "Every row made for dispatch has a target from zero to the minimum loading, except rows that end in mode 4 when mode 4 has no length: there the time is cut to zero and zero is divided by zero, so the right hand side is NaN. C96_missing shows these are exactly the bad rows, C96_refuted gives sound data that lead to one, in a table that set_fast_start_constraints accepts. C96_limits shows that elsewhere the right hand sides of the model are the targets."
  },
  {
   "property": "C97",
   "status": "partial",
   "theorems": [
    "C97_file_slopes",
    "C97_joint_capacity_partial",
    "C97_regulation_partial",
    "C97_slopes_missing",
    "C97_costs",
    "C97_costs_missing",
    "C97_slopes_refuted",
    "C97_costs_refuted"
   ],
   "note": "Trapeziums made from a case file always have slopes that are numbers, and tables without zero in max_availability make only such coefficients. The checks accept zero max_availability and zero loss factors, both of which are divided by: the slopes and costs are then NaN or infinite (C97_slopes_refuted, C97_costs_refuted). The missing cases are characterised exactly. Elsewhere the coefficients and costs of the model are the quotients."
  },
  {
   "property": "C98",
   "status": "partial",
   "theorems": [
    "C98_without_id_partial",
    "C98_with_id_lost",
    "C98_left_out",
    "C98_refuted"
   ],
   "note": "Proved for a first term without the id of the group. False if the first term carries the id: the value of the group is stored in the term, but the term is then skipped because it has a group (rhs_calculator.py:546-590), so a group alone gives 0 whatever its members are, and in a longer sum the group is left out. The comment in the code describes this form as supported."
  },
  {
   "property": "C99",
   "status": "partial",
   "theorems": [
    "C99_followed_partial",
    "C99_last_fails",
    "C99_refuted"
   ],
   "note": "Proved when another term follows: the code continues with the next term (rhs_calculator.py:555-558). False at the end of an equation: the code reads equation[i+1] before it tests anything, so the evaluation always ends with an IndexError."
  }
 ]
}
