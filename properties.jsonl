{"id": "C01", "title": "Decision variable ids never collide", "statement": "After any sequence of market-building calls, whether they succeed or raise part-way, no two rows of the market's decision variable tables carry the same variable id, and the id the next call will use is larger than all of them.", "quantifier": "every finite sequence of API calls with arbitrary arguments, including failing calls and repeated calls", "why_tests_cant": "The property is an invariant over unboundedly long call histories; tests run a handful of fixed call orders.", "anchors": ["src/nempy/markets.py::SpotMarket.set_unit_volume_bids", "src/nempy/markets.py::SpotMarket.set_interconnectors", "src/nempy/markets.py::SpotMarket.set_interconnector_losses", "src/nempy/markets.py::SpotMarket.make_constraints_elastic", "src/nempy/help_functions/helper_functions.py::save_index"]}
{"id": "C02", "title": "Constraint ids never collide", "statement": "After any sequence of market-building calls no two rows of the market's constraint tables (right-hand-side tables, static or dynamic) carry the same constraint id, and the id the next call will use is larger than all of them.", "quantifier": "every finite sequence of API calls with arbitrary arguments, including failing and repeated calls", "why_tests_cant": "Invariant over unbounded call histories; a collision only shows up for particular orders and table contents.", "anchors": ["src/nempy/markets.py::SpotMarket.set_demand_constraints", "src/nempy/markets.py::SpotMarket.set_unit_ramp_rate_constraints", "src/nempy/markets.py::SpotMarket.set_joint_ramping_constraints_reg", "src/nempy/markets.py::SpotMarket.set_interconnector_losses", "src/nempy/markets.py::SpotMarket.set_tie_break_constraints"]}
{"id": "C03", "title": "A rejected table leaves the market unchanged", "statement": "If a set_* call is rejected by input validation (bad column, missing column, wrong type, bad value, repeated row) then the market that existed before the call is unchanged: dispatching it afterwards gives the same linear program as if the call had never been made.", "quantifier": "every market state, every set_* call and every rejected table of it (false of rejected tables of violation costs)", "why_tests_cant": "Quantifies over all states and all ways a table can be wrong.", "anchors": ["src/nempy/markets.py::SpotMarket", "src/nempy/spot_market_backend/dataframe_validator.py::DataFrameSchema.validate"]}
{"id": "C04", "title": "Input validation accepts exactly the well-formed tables", "statement": "A table is accepted exactly when it has no column outside the schema, every required column is present, every column has the declared type and, where demanded, only allowed, real, non-negative values, and no two rows share the primary key; otherwise an error of the corresponding class is raised.", "quantifier": "every schema that describes each column once, asks only columns of numbers not to be negative and needs one of its key columns (all schemas of nempy are such, proved), and every table", "why_tests_cant": "Soundness and completeness of a checker over all tables cannot be sampled.", "anchors": ["src/nempy/spot_market_backend/dataframe_validator.py::DataFrameSchema", "src/nempy/spot_market_backend/dataframe_validator.py::SeriesSchema"]}
{"id": "C05", "title": "Dispatch stays inside the offered volumes", "statement": "In every feasible solution of the built optimisation problem each bid band is dispatched between zero and its offered volume, bands offering less than 0.0001 MW are not dispatched at all, and the dispatch reported for a unit, service and dispatch type is non-negative and at most the sum of its offered bands.", "quantifier": "every volume bid table, every other market content, every feasible solution", "why_tests_cant": "Needs all bid tables and all solver outcomes, not one solved example.", "anchors": ["src/nempy/spot_market_backend/variable_ids.py::bids", "src/nempy/markets.py::SpotMarket.set_unit_volume_bids", "src/nempy/markets.py::SpotMarket.get_unit_dispatch"]}
{"id": "C06", "title": "Regional energy balance", "statement": "In every feasible solution, for every region with a (non elastic) demand constraint: generator dispatch minus load dispatch in the region, plus loss-factor weighted interconnector flows into the region minus those out of it, minus the region's share of interconnector losses, equals the demand that was set.", "quantifier": "every market built through the API whose links each join two different regions, every region with at least one energy variable (a bid or a link), every feasible solution", "why_tests_cant": "Balance must hold for every topology and every solution; tests check a few solved markets.", "anchors": ["src/nempy/spot_market_backend/market_constraints.py::energy", "src/nempy/spot_market_backend/solver_interface.py::create_lhs", "src/nempy/spot_market_backend/solver_interface.py::InterfaceToSolver.add_constraints", "src/nempy/markets.py::SpotMarket.set_demand_constraints", "src/nempy/markets.py::SpotMarket.set_interconnectors", "src/nempy/markets.py::SpotMarket.dispatch"]}
{"id": "C07", "title": "Capacity and forecast limits bind energy dispatch", "statement": "In every feasible solution, for every unit limit row the unit's energy dispatch of that dispatch type does not exceed the given capacity, including for both sides of bidirectional units, and for every forecast row the unit's energy dispatch does not exceed the unconstrained intermittent generation forecast.", "quantifier": "every limit table, every history of calls around it, every feasible solution; units and dispatch types listed in unit_info that bid energy (or, without a bid, a non-negative limit)", "why_tests_cant": "All tables, all units (ordinary, load, bidirectional) and all solutions.", "anchors": ["src/nempy/spot_market_backend/unit_constraints.py::capacity", "src/nempy/spot_market_backend/unit_constraints.py::uigf", "src/nempy/markets.py::SpotMarket.set_unit_bid_capacity_constraints", "src/nempy/markets.py::SpotMarket.set_unconstrained_intermittent_generation_forecast_constraint"]}
{"id": "C08", "title": "Ramp limits of ordinary units", "statement": "In every feasible solution a unit that is not bidirectional ends the interval between initial_output - ramp_down_rate*T/60 and initial_output + ramp_up_rate*T/60, where each rate is the smaller of the bid rate and the SCADA rate, a missing SCADA rate being ignored.", "quantifier": "every ramp table without SCADA rate columns of its own, every SCADA table, dispatch interval length, history and feasible solution; units listed in unit_info that bid energy", "why_tests_cant": "All numeric inputs and the missing/present SCADA combinations.", "anchors": ["src/nempy/spot_market_backend/ramp_rate_processing.py::_adjust_for_scada_ramp_rates", "src/nempy/spot_market_backend/unit_constraints.py::ramp_up", "src/nempy/spot_market_backend/unit_constraints.py::ramp_down", "src/nempy/markets.py::SpotMarket.set_unit_ramp_rate_constraints"]}
{"id": "C09", "title": "Composite ramp rate of bidirectional units", "statement": "For a bidirectional unit the net output limit set by the ramp constraints is exactly the output reached when the unit ramps for the whole interval at the load-side rate while below zero and at the generator-side rate while above zero; the up and down limits are mirror images and the limit is continuous and monotone in the initial output.", "quantifier": "every initial output, every pair of non-negative rates (positive for continuity), every interval length; every history and feasible solution for the constraint itself", "why_tests_cant": "Piecewise behaviour over a continuum of inputs, including crossing zero exactly at the interval end.", "anchors": ["src/nempy/spot_market_backend/ramp_rate_processing.py::_calculate_composite_ramp_rates", "src/nempy/spot_market_backend/ramp_rate_processing.py::calc_composite_ramp_up_rate", "src/nempy/spot_market_backend/ramp_rate_processing.py::calc_composite_ramp_down_rate", "src/nempy/spot_market_backend/ramp_rate_processing.py::_bidirectional_ramp_constraints"]}
{"id": "C10", "title": "FCAS requirement sets are met", "statement": "In every feasible solution, for every requirement set, the total dispatch of the set's services over all units in the set's regions stands in the declared relation (=, >=, <=) to the set's volume.", "quantifier": "every requirement table over FCAS services, every bid table, every set with at least one variable, every feasible solution; terms linked to the set by the link_* methods count too", "why_tests_cant": "Set membership is a join over arbitrary tables; examples cover few shapes.", "anchors": ["src/nempy/spot_market_backend/market_constraints.py::fcas", "src/nempy/markets.py::SpotMarket.set_fcas_requirements_constraints"]}
{"id": "C11", "title": "FCAS max availability is respected", "statement": "In every feasible solution the dispatch of a unit's FCAS service (of the given dispatch type) does not exceed the max availability that was set.", "quantifier": "every availability table, every history around it, every feasible solution; units and dispatch types listed in unit_info", "why_tests_cant": "All tables and all solutions.", "anchors": ["src/nempy/spot_market_backend/unit_constraints.py::fcas_max_availability", "src/nempy/markets.py::SpotMarket.set_fcas_max_availability"]}
{"id": "C12", "title": "Joint ramping of energy and regulation", "statement": "In every feasible solution: for a generator energy plus raise regulation is at most initial output plus ramp-up capability and energy minus lower regulation is at least initial output minus ramp-down capability; for a load energy minus raise regulation is at least initial output minus ramp-up capability and energy plus lower regulation is at most initial output plus ramp-down capability; for a bidirectional unit the same holds for net energy and the sum of its regulation on both sides.", "quantifier": "every SCADA ramp table, every unit with a regulation bid when the call is made (bidirectional units: on both sides), no elastic violation, every feasible solution", "why_tests_cant": "Four sign cases and bidirectional aggregation over all inputs.", "anchors": ["src/nempy/spot_market_backend/fcas_constraints.py::joint_ramping_constraints_raise_reg", "src/nempy/spot_market_backend/fcas_constraints.py::joint_ramping_constraints_lower_reg", "src/nempy/spot_market_backend/fcas_constraints.py::joint_ramping_constraints_raise_reg_bdu", "src/nempy/spot_market_backend/fcas_constraints.py::joint_ramping_constraints_lower_reg_bdu", "src/nempy/markets.py::SpotMarket.set_joint_ramping_constraints_reg"]}
{"id": "C13", "title": "Joint capacity constraints confine a unit to its contingency FCAS trapezium", "statement": "In every feasible solution a unit dispatched for a contingency service satisfies energy + upper_slope*service + raise regulation <= enablement_max and energy - lower_slope*service - lower regulation >= enablement_min (with the roles of regulation swapped for loads), so that with no regulation the (energy, service) point lies inside the trapezium; for bidirectional units energy is net output and regulation is the sum over both sides.", "quantifier": "every trapezium table with positive max availability, every dispatch type, every feasible solution", "why_tests_cant": "Geometric containment over a continuum of inputs.", "anchors": ["src/nempy/spot_market_backend/fcas_constraints.py::joint_capacity_constraints", "src/nempy/markets.py::SpotMarket.set_joint_capacity_constraints"]}
{"id": "C14", "title": "Energy and regulation capacity constraints confine a unit to its regulation trapezium", "statement": "In every feasible solution energy + upper_slope*regulation <= enablement_max and energy - lower_slope*regulation >= enablement_min, and together with max availability this is exactly membership of the (energy, regulation) point in the trapezium.", "quantifier": "every regulation trapezium with positive max availability, every registered unit and dispatch type other than the load side of a bidirectional unit, every feasible solution", "why_tests_cant": "Exact region equality over a continuum.", "anchors": ["src/nempy/spot_market_backend/fcas_constraints.py::energy_and_regulation_capacity_constraints", "src/nempy/markets.py::SpotMarket.set_energy_and_regulation_capacity_constraints"]}
{"id": "C15", "title": "Interconnector flow limits and regional effect", "statement": "In every feasible solution each interconnector link's flow lies between its min and max, and a flow f adds to_region_loss_factor*f to the receiving region's balance and from_region_loss_factor*f is taken from the sending region's, and affects no other region.", "quantifier": "every interconnector table without links from a region to itself, every feasible solution", "why_tests_cant": "All topologies and flows.", "anchors": ["src/nempy/spot_market_backend/interconnectors.py::create", "src/nempy/markets.py::SpotMarket.set_interconnectors"]}
{"id": "C16", "title": "Interconnector losses interpolate the loss function", "statement": "In every feasible solution of the integer problem the loss of a link with a loss model equals the linear interpolation, at the link's flow, of the loss function between two adjacent break points that bracket the flow.", "quantifier": "every loss function, every set of two or more strictly increasing break points, every feasible solution", "why_tests_cant": "All loss functions, break point sets and flows.", "anchors": ["src/nempy/spot_market_backend/interconnectors.py::link_inter_loss_to_interpolation_weights", "src/nempy/spot_market_backend/interconnectors.py::link_weights_to_inter_flow", "src/nempy/spot_market_backend/interconnectors.py::create_weights_must_sum_to_one", "src/nempy/spot_market_backend/interconnectors.py::create_weights", "src/nempy/spot_market_backend/interconnectors.py::create_loss_variables", "src/nempy/spot_market_backend/solver_interface.py::InterfaceToSolver.add_sos_type_2", "src/nempy/markets.py::SpotMarket.set_interconnector_losses"]}
{"id": "C17", "title": "Losses are shared out completely", "statement": "In every feasible solution the losses charged to the two end regions of a link add up to the link's loss, the from region bearing from_region_loss_share of it, and no other region is charged.", "quantifier": "every loss table over links between two different regions, every feasible solution", "why_tests_cant": "All shares, regions and solutions.", "anchors": ["src/nempy/spot_market_backend/interconnectors.py::create_loss_variables", "src/nempy/markets.py::SpotMarket.set_interconnector_losses", "src/nempy/markets.py::SpotMarket._get_interconnector_losses_by_region"]}
{"id": "C18", "title": "Historical loss functions", "statement": "The loss function built from historical loss factor data is the quadratic (C-1)*f + K/2*f^2 with C the constant, demand-adjusted loss factor, vanishes at zero flow, has slope (marginal loss) equal to the loss factor equation minus one at every flow, and piecewise interpolation between break points never under-states a convex loss and over-states it by at most K/8*h^2 on a segment of width h.", "quantifier": "every coefficient table, demand, flow and break point set, and every link along or against its interconnector (factor 1 or -1)", "why_tests_cant": "Real-valued statements over all inputs.", "anchors": ["src/nempy/historical_inputs/interconnectors.py::create_loss_functions", "src/nempy/historical_inputs/interconnectors.py::_create_function", "src/nempy/historical_inputs/interconnectors.py::InterconnectorData.get_interconnector_loss_model"]}
{"id": "C19", "title": "Elastic constraints are always satisfiable and free when not violated", "statement": "After a constraint set is made elastic, any assignment to the original decision variables extends to the new violation variables so that the elastic constraints hold; an assignment satisfying the original constraints extends with zero violation and the same cost; and the elastic constraints with all violations zero are exactly the original ones.", "quantifier": "every constraint set of a market reached by successful calls, with types <=, >=, =, every violation cost (a number, or a table naming each set once and covering the set's constraints), every assignment; for the comparison with the original problem every constraint of the set is given to the solver (a constraint none of whose variables exist is dropped, and comes to life when made elastic)", "why_tests_cant": "For all assignments and constraint tables.", "anchors": ["src/nempy/spot_market_backend/elastic_constraints.py::create_deficit_variables", "src/nempy/markets.py::SpotMarket.make_constraints_elastic"]}
{"id": "C20", "title": "At the optimum violations are minimal and reported correctly", "statement": "With a positive violation cost, in every optimal solution the violation variables of an elastic constraint equal exactly the amount by which the constraint is violated (zero if it holds), and the reported violation degree is the sum of these amounts.", "quantifier": "every market reached by successful calls, every elastic constraint key whose constraints all have a positive violation cost, every optimal solution", "why_tests_cant": "Optimality argument over all solutions.", "anchors": ["src/nempy/markets.py::SpotMarket.make_constraints_elastic", "src/nempy/markets.py::SpotMarket.get_elastic_constraints_violation_degree"]}
{"id": "C21", "title": "A unit's bands are dispatched in price order", "statement": "In every optimal solution of a market without tie-break constraints, if a band of a unit is dispatched then every cheaper band of the same unit, service and dispatch type (more expensive band for loads) is dispatched to its full volume, whatever other constraints the market has.", "quantifier": "every market built by any sequence of calls without tie-break in which the price bids were set after the volume bids, every optimal solution, every registered unit (positive loss factor for energy) whose two bands have a volume of at least 0.0001 and a price", "why_tests_cant": "Exchange argument over all optimal solutions and all constraint combinations.", "anchors": ["src/nempy/markets.py::SpotMarket.set_unit_price_bids", "src/nempy/markets.py::SpotMarket.dispatch", "src/nempy/spot_market_backend/solver_interface.py::create_lhs", "src/nempy/spot_market_backend/solver_interface.py::create_unit_level_generic_constraint_lhs", "src/nempy/spot_market_backend/objective_function.py::bids"]}
{"id": "C22", "title": "Merit order across units", "statement": "In a market without unit constraints, unit links and tie-break, every optimal solution dispatches a generator energy band only if all generator energy bands of the same region that are cheaper at the regional reference node (price over loss factor) are fully dispatched; likewise for every other service and for loads.", "quantifier": "every bid table, every demand, every optimal solution; registered units, bands with volume and price; interconnectors and FCAS requirement sets may be present", "why_tests_cant": "All optimal solutions of all such markets.", "anchors": ["src/nempy/markets.py::SpotMarket.set_unit_volume_bids", "src/nempy/markets.py::SpotMarket.set_unit_price_bids", "src/nempy/markets.py::SpotMarket.set_demand_constraints", "src/nempy/markets.py::SpotMarket.dispatch"]}
{"id": "C23", "title": "Bid costs enter the objective with the right sign and scaling", "statement": "The objective equals the sum over priced bid bands of registered units of price/loss_factor times dispatch for energy generators, minus that for energy loads, and price times dispatch for FCAS, plus the violation costs times the violation variables; un-scaling historical prices by the loss factor and setting them as bids gives back the original prices.", "quantifier": "every accepted bid table, every dispatch; for the round trip every nonzero loss factor", "why_tests_cant": "Algebraic identity over all inputs.", "anchors": ["src/nempy/spot_market_backend/objective_function.py::bids", "src/nempy/spot_market_backend/objective_function.py::scale_by_loss_factors", "src/nempy/historical_inputs/units.py::UnitData._unscale_price_bids", "src/nempy/markets.py::SpotMarket.set_unit_price_bids"]}
{"id": "C24", "title": "Every dispatchable band is priced and located", "statement": "After volume and price bids were accepted every band with a volume of at least 0.0001 and a price, of a unit registered with that dispatch type, has exactly one variable, exactly one cost in the objective, and belongs to exactly one region's balance. Without a price the band is dispatched for free, without registration it is in no balance.", "quantifier": "every accepted pair of volume and price bid tables, every band", "why_tests_cant": "Requires all pairs of accepted tables; holes only show for mismatched tables.", "anchors": ["src/nempy/markets.py::SpotMarket.set_unit_volume_bids", "src/nempy/markets.py::SpotMarket.set_unit_price_bids", "src/nempy/spot_market_backend/variable_ids.py::bids", "src/nempy/spot_market_backend/objective_function.py::bids"]}
{"id": "C25", "title": "Setting a constraint set again replaces it", "statement": "Calling a set_* constraint method a second time replaces the effect of the first call: the market then dispatches as if only the second call had been made.", "quantifier": "every market, every pair of accepted argument tables", "why_tests_cant": "A property of all call histories; stale entries only matter for specific sequences.", "anchors": ["src/nempy/markets.py::SpotMarket.set_demand_constraints", "src/nempy/markets.py::SpotMarket.set_fast_start_constraints", "src/nempy/markets.py::SpotMarket.set_unit_ramp_rate_constraints", "src/nempy/markets.py::SpotMarket.make_constraints_elastic"]}
{"id": "C26", "title": "Removing fast start constraints undoes setting them", "statement": "remove_fast_start_constraints after set_fast_start_constraints restores the linear program to what it was before, whether or not the constraints were elastic, and does nothing if none were set.", "quantifier": "every market state without fast start constraints and every profile table", "why_tests_cant": "All states.", "anchors": ["src/nempy/markets.py::SpotMarket.set_fast_start_constraints", "src/nempy/markets.py::SpotMarket.remove_fast_start_constraints"]}
{"id": "C27", "title": "Fast start profile limits", "statement": "In every feasible solution a fast start unit ending the interval in mode 0 or 1 has zero energy dispatch (at most zero), in mode 2 exactly min_loading*t/T2, in mode 3 at least min_loading, in mode 4 at least min_loading*(1-t/T4); these targets lie in [0, min_loading] for 0<=t<=T and are continuous across mode changes.", "quantifier": "every profile table whose modes two and four have positive length, every registered unit (generator side of bidirectional units), every feasible solution", "why_tests_cant": "All profiles, times and solutions.", "anchors": ["src/nempy/spot_market_backend/unit_constraints.py::create_fast_start_profile_constraints", "src/nempy/spot_market_backend/unit_constraints.py::fast_start_mode_one_constraints", "src/nempy/spot_market_backend/unit_constraints.py::fast_start_mode_two_constraints", "src/nempy/spot_market_backend/unit_constraints.py::fast_start_mode_three_constraints", "src/nempy/spot_market_backend/unit_constraints.py::fast_start_mode_four_constraints", "src/nempy/markets.py::SpotMarket.set_fast_start_constraints"]}
{"id": "C28", "title": "Fast start mode progression", "statement": "Advancing a fast start unit by a five minute interval never moves it to an earlier mode, conserves time (time spent in the modes passed through plus time in the end mode equals the time in mode at the start plus five minutes, unless capped at the end of mode 4), leaves the time in the end mode within the length of modes 1 to 4, reports the time since the end of mode 2 exactly when mode 2 ended within the interval, and never yields a mode 2 target with a zero mode length.", "quantifier": "every list of profiles with current mode 0 to 4, non-negative time in mode and mode lengths and every dispatch report; the step by step process for times that do not exceed the mode's length", "why_tests_cant": "Continuum of times and lengths with chained mode crossings.", "anchors": ["src/nempy/historical_inputs/units.py::UnitData._update_modes", "src/nempy/historical_inputs/units.py::UnitData.get_fast_start_profiles_for_dispatch"]}
{"id": "C29", "title": "Ramp limits of fast start units", "statement": "In the first fast start run units in modes 0, 1 and 2 have no ramp constraint; in the second run units ending in modes 0 to 2 have none, and a unit that left mode 2 during the interval may ramp exactly from min_loading at its ramp rate for the minutes since it left mode 2; all other units keep their ramp limits.", "quantifier": "every ramp table without SCADA columns of its own and every profile table, every registered ordinary unit offering energy", "why_tests_cant": "All modes, times and rates.", "anchors": ["src/nempy/spot_market_backend/ramp_rate_processing.py::_adjust_ramp_rates_for_fast_start_profiles", "src/nempy/spot_market_backend/ramp_rate_processing.py::_remove_fast_start_units_starting_in_mode_0_1_2", "src/nempy/spot_market_backend/ramp_rate_processing.py::_remove_fast_start_units_ending_in_mode_0_1_2", "src/nempy/spot_market_backend/ramp_rate_processing.py::_adjust_ramp_rates_of_units_ending_in_mode_three_and_four", "src/nempy/markets.py::SpotMarket.set_unit_ramp_rate_constraints"]}
{"id": "C30", "title": "Over-constrained re-run relaxes violated constraints enough", "statement": "In the over-constrained dispatch re-run every violated elastic constraint has its right-hand side relaxed by its violation plus 0.01 in the direction of the violation, so that the original dispatch meets all relaxed constraints without using any violation variable.", "quantifier": "every market, every optimal solution with violations", "why_tests_cant": "All constraint types and solutions.", "anchors": ["src/nempy/markets.py::SpotMarket.dispatch"]}
{"id": "C31", "title": "The pricing run contains the dispatch solution", "statement": "The linear program used for prices, obtained by keeping only the interpolation weights near the dispatched flow and fixing unused links, still has the dispatch solution as a feasible point.", "quantifier": "every market with loss models and link pairs, every dispatch solution", "why_tests_cant": "All break point layouts and flows.", "anchors": ["src/nempy/markets.py::SpotMarket._get_linear_model", "src/nempy/markets.py::SpotMarket._remove_unused_interpolation_weights", "src/nempy/spot_market_backend/solver_interface.py::InterfaceToSolver.disable_variables"]}
{"id": "C32", "title": "Two-link market interconnectors carry flow one way only", "statement": "In every feasible solution of the integer problem at most one link of a two-link interconnector carries a non-zero flow, the links' limits and loss models are those of the link, the flow and the losses are reported per link, and in generic constraints the interconnector counts with its generic-constraint-factor weighted link flows.", "quantifier": "every link table whose links are named differently from their interconnector, every feasible solution", "why_tests_cant": "All solutions.", "anchors": ["src/nempy/markets.py::SpotMarket.set_interconnectors", "src/nempy/markets.py::SpotMarket.get_interconnector_flows", "src/nempy/markets.py::SpotMarket.dispatch", "src/nempy/spot_market_backend/solver_interface.py::InterfaceToSolver.add_sos_type_1"]}
{"id": "C33", "title": "Tie-break constraints balance equally priced bids pro rata", "statement": "Tie-break constraints are created exactly for the pairs of energy bids of different units in the same region, of the same dispatch type and with the same cost, each constraint holds without violation exactly when both bids are dispatched in the same proportion of their volumes, and distinct pairs give distinct constraints.", "quantifier": "every bid table with positive volumes and every dispatch", "why_tests_cant": "Pairing over arbitrary tables and name strings.", "anchors": ["src/nempy/spot_market_backend/unit_constraints.py::tie_break_constraints", "src/nempy/markets.py::SpotMarket.set_tie_break_constraints"]}
{"id": "C34", "title": "Generic constraints mean what was linked", "statement": "In every feasible solution a generic constraint's left-hand side equals the sum over linked units of coefficient times net dispatch of the service, plus over linked regions of coefficient times the region's total dispatch of the service (loads counted like generators), plus over linked interconnectors of coefficient times factor weighted flow, and stands in the declared relation to its right-hand side.", "quantifier": "every generic constraint table, every link table, every constraint with at least one linked variable, every feasible solution", "why_tests_cant": "Joins over arbitrary tables.", "anchors": ["src/nempy/markets.py::SpotMarket.set_generic_constraints", "src/nempy/markets.py::SpotMarket.link_units_to_generic_constraints", "src/nempy/markets.py::SpotMarket.link_regions_to_generic_constraints", "src/nempy/markets.py::SpotMarket.link_interconnectors_to_generic_constraints", "src/nempy/spot_market_backend/solver_interface.py::create_mapping_of_generic_constraint_sets_to_constraint_ids", "src/nempy/spot_market_backend/solver_interface.py::create_unit_level_generic_constraint_lhs", "src/nempy/spot_market_backend/solver_interface.py::create_region_level_generic_constraint_lhs", "src/nempy/spot_market_backend/solver_interface.py::create_interconnector_generic_constraint_lhs"]}
{"id": "C35", "title": "Dispatch reports conserve the solution", "statement": "get_unit_dispatch reports each unit, dispatch type and service once, with the sum of its bands; summed over any group the report equals the sum of the bid variables of the group, and the net dispatch of a region in the regional summary equals its generators minus its loads.", "quantifier": "every solution of every market", "why_tests_cant": "Aggregation over arbitrary tables.", "anchors": ["src/nempy/markets.py::SpotMarket.get_unit_dispatch", "src/nempy/markets.py::SpotMarket._get_net_unit_dispatch_by_region"]}
{"id": "C36", "title": "The regional dispatch summary balances", "statement": "For every region of the summary, dispatch plus inflow minus transmission losses minus interconnector losses equals the region's demand, and every region with dispatch appears.", "quantifier": "every market with met demand constraints, every solution", "why_tests_cant": "All loss factors, flow directions and topologies.", "anchors": ["src/nempy/markets.py::SpotMarket.get_region_dispatch_summary", "src/nempy/markets.py::SpotMarket._get_interconnector_inflow_by_region", "src/nempy/markets.py::SpotMarket._get_transmission_losses", "src/nempy/markets.py::SpotMarket._get_interconnector_losses_by_region"]}
{"id": "C37", "title": "FCAS prices and availability reports", "statement": "The price of a service in a region is the sum of the prices of all requirement sets covering it, and raising a single FCAS dispatch up to the reported availability keeps every unit-level constraint on it satisfied.", "quantifier": "every market and solution", "why_tests_cant": "All constraint combinations and solutions.", "anchors": ["src/nempy/markets.py::SpotMarket.get_fcas_prices", "src/nempy/markets.py::SpotMarket.get_fcas_availability"]}
{"id": "C38", "title": "Interval numbering and file names", "statement": "Every five minute dispatch interval maps to exactly one market day and interval number from 1 to 288 (04:05 is 1, 04:00 the next day is 288), distinct intervals have distinct file names, and the file chosen is the one that exists, with the re-run file used only if the ordinary one is absent.", "quantifier": "every date-time and every cache content", "why_tests_cant": "All dates including month, year and leap boundaries.", "anchors": ["src/nempy/historical_inputs/xml_cache.py::XMLCacheManager.get_file_name", "src/nempy/historical_inputs/xml_cache.py::XMLCacheManager._get_market_year_month_day_as_str", "src/nempy/historical_inputs/xml_cache.py::XMLCacheManager._get_interval_number_as_str", "src/nempy/historical_inputs/loaders.py::RawInputsLoader.is_over_constrained_dispatch_rerun"]}
{"id": "C39", "title": "Data read belongs to the interval that was set", "statement": "After loading an interval, whatever the sequence of loads and download failures before, the data accessors return data of the interval the cache manager says it is at.", "quantifier": "every sequence of load calls, every cache content and every failure point", "why_tests_cant": "Crash-point property over histories.", "anchors": ["src/nempy/historical_inputs/xml_cache.py::XMLCacheManager.load_interval", "src/nempy/historical_inputs/loaders.py::RawInputsLoader.set_interval"]}
{"id": "C40", "title": "Database queries return the records in force", "statement": "For tables with effective date and version the query returns exactly the rows of each id that have the latest effective date not after the query time and, among these, the highest version; for start/end dated tables exactly the row of each unit with the latest start date not after the query time; for day tables exactly the rows of the market day.", "quantifier": "every table content as set_data and add_data store it (times as fixed width text, versions as numbers) and every five minute query time", "why_tests_cant": "All table contents.", "anchors": ["src/nempy/historical_inputs/mms_db.py::InputsByEffectiveDateVersionNoAndDispatchInterconnector", "src/nempy/historical_inputs/mms_db.py::InputsByEffectiveDateVersionNo", "src/nempy/historical_inputs/mms_db.py::InputsStartAndEnd", "src/nempy/historical_inputs/mms_db.py::InputsByDay"]}
{"id": "C41", "title": "Database population covers the requested months", "statement": "Populating from start to end requests for every table filled by month exactly the months from the month before start to end, each once, in order, and for every other table the end month only.", "quantifier": "every pair of start and end months with the start not after the end", "why_tests_cant": "All month pairs, across year ends.", "anchors": ["src/nempy/historical_inputs/mms_db.py::DBManager.populate"]}
{"id": "C42", "title": "FCAS trapezium scaling keeps slopes and only tightens", "statement": "Scaling a trapezium for positive AGC limits, ramp rates and UIGF never raises max availability, never lowers enablement_min nor raises enablement_max, keeps to the limits given, and keeps both slopes of the trapezium.", "quantifier": "every table of offers, AGC limits, initial conditions with non-negative ramp rates and forecasts", "why_tests_cant": "Continuum of inputs.", "anchors": ["src/nempy/historical_inputs/units.py::_scaling_for_agc_enablement_limits", "src/nempy/historical_inputs/units.py::_scaling_for_agc_ramp_rates", "src/nempy/historical_inputs/units.py::_scaling_for_uigf"]}
{"id": "C43", "title": "FCAS enabling preconditions", "statement": "A FCAS bid survives pre-processing exactly when it meets the enabling conditions (positive max availability, some positive band, capacity of its side reaching enablement_min, enablement limits on the right side of zero, initial output inside the enablement limits of the unit, which for regulation of two-way units are those of both sides together, AGC on for regulation), energy bids are untouched, and the price table keeps exactly the rows whose key is among the surviving volume bids.", "quantifier": "every bid, capacity, initial MW and AGC table with one row per key and the known names of bid types and directions", "why_tests_cant": "All combinations of conditions for all unit kinds.", "anchors": ["src/nempy/historical_inputs/units.py::_enforce_preconditions_for_enabling_fcas"]}
{"id": "C44", "title": "Right-hand-side equations are evaluated as reverse polish notation", "statement": "For every arithmetic expression over constants and SCADA values, the equation terms that encode it evaluate to the value of the expression; an input that need not have a value stands for its default if it has none; moves on the stack bring up the element they should; equations without operators evaluate to the sum of multiplier times value; evaluating twice gives the same answer.", "quantifier": "every expression built from constants, SCADA and other input values with any defaults, the binary, unary, step and scaling operations; every sequence of moves on the stack; every equation without operators whose groups have a factor term without group id; every history of evaluations and updates", "why_tests_cant": "All expressions.", "anchors": ["src/nempy/historical_inputs/rhs_calculator.py::_rpn_calc", "src/nempy/historical_inputs/rhs_calculator.py::_rpn_stack", "src/nempy/historical_inputs/rhs_calculator.py::RHSCalc.compute_constraint_rhs"]}
{"id": "C45", "title": "Updating an input only affects the reported dependants", "statement": "After update_spd_id_value, the right-hand side of every constraint not listed by get_rhs_constraint_equations_that_depend_value is unchanged.", "quantifier": "every equation set and every update", "why_tests_cant": "All equation sets.", "anchors": ["src/nempy/historical_inputs/rhs_calculator.py::RHSCalc.update_spd_id_value", "src/nempy/historical_inputs/rhs_calculator.py::RHSCalc.get_rhs_constraint_equations_that_depend_value", "src/nempy/historical_inputs/rhs_calculator.py::RHSCalc.compute_constraint_rhs"]}
{"id": "C46", "title": "Generic and FCAS constraint sets partition the invoked constraints", "statement": "Every invoked constraint appears either in the regional FCAS requirements or in the generic right-hand sides, never in both, with its own right-hand side and type.", "quantifier": "every case file in which constraint ids are not repeated among the inputs and among the solutions of the dispatch run", "why_tests_cant": "All tables.", "anchors": ["src/nempy/historical_inputs/constraints.py::ConstraintData"]}
{"id": "C47", "title": "Time sequential ramping inputs", "statement": "The ramp table built from a previous dispatch has, for every row of the ramp rate table, exactly one row with the same rates whose initial output is the unit's net energy dispatch in the previous interval, zero if it was not dispatched; the seed table has one row for every unit in both tables.", "quantifier": "every dispatch and ramp rate table", "why_tests_cant": "All tables, including bidirectional units.", "anchors": ["src/nempy/time_sequential.py::construct_ramp_rate_parameters", "src/nempy/time_sequential.py::create_seed_ramp_rate_parameters"]}
{"id": "C48", "title": "Tables passed in can be passed in again", "statement": "A call does not modify the caller's tables in a way that changes the outcome of passing the same table again: an accepted table is accepted again by the same call on the same market set-up.", "quantifier": "every accepted table of every call and of the constructor (false of unit limits, forecasts, and of bids and ramp rates without dispatch types)", "why_tests_cant": "All tables and schemas.", "anchors": ["src/nempy/markets.py::SpotMarket.set_unit_volume_bids", "src/nempy/markets.py::SpotMarket.set_unit_bid_capacity_constraints", "src/nempy/markets.py::SpotMarket.set_unit_price_bids", "src/nempy/spot_market_backend/variable_ids.py::bids", "src/nempy/spot_market_backend/unit_constraints.py::capacity"]}
{"id": "C49", "title": "Filling the XML cache covers the range asked for", "statement": "Filling the XML cache for a range of months or of days asks for the archive of the market day of every dispatch interval whose time lies in the range, including its first and last day.", "quantifier": "every range of months or of days and every five minute interval in it", "why_tests_cant": "All ranges across months and leap years; each archive is a large download, so tests use one day at most.", "anchors": ["src/nempy/historical_inputs/xml_cache.py::XMLCacheManager.populate", "src/nempy/historical_inputs/xml_cache.py::XMLCacheManager.populate_by_day"]}
{"id": "C50", "title": "A filled database table holds the right records", "statement": "A table filled month by month holds exactly one row for every key of the rows of its files that are not of an intervention run. A table filled with all history holds, for every key, the rows of the latest file that has the key, among the files with all columns of the table from 2010 to the month asked for.", "quantifier": "every set of monthly files and every range of months", "why_tests_cant": "All contents of files, repeated keys within and across months, missing files; the real files are large downloads.", "anchors": ["src/nempy/historical_inputs/mms_db.py::_MultiDataSource.add_data", "src/nempy/historical_inputs/mms_db.py::_AllHistDataSource.set_data"]}
{"id": "C51", "title": "Historical interconnector definitions", "statement": "Every regulated interconnector with a direction and limits is defined as one link between its regions, with flows from minus its import limit to its export limit. Every market interconnector link with a bid to its region is defined with flows from zero to the availability it bid, or to its capacity if it bid none, with its loss factors and, if whole, its factor. There are no other definitions.", "quantifier": "every set of interconnector, constraint, market link and bid tables", "why_tests_cant": "Universal over tables, including missing rows and missing availabilities.", "anchors": ["src/nempy/historical_inputs/interconnectors.py::InterconnectorData.get_interconnector_definitions", "src/nempy/historical_inputs/interconnectors.py::_format_interconnector_definitions", "src/nempy/historical_inputs/interconnectors.py::_format_mnsp_transmission_loss_factors"]}
{"id": "C52", "title": "Volume bids in a case file", "statement": "Every trade of every trader period in a case file becomes exactly one row of the volume bid table, in order, with the unit, the market, the direction and every number of the trade in the column it is for; the columns for which it has no number are empty.", "quantifier": "every document with at least two trader periods whose trades name a known market and have readable numbers, with any number of trades per unit and any set of attributes", "why_tests_cant": "A document is an arbitrary tree; a parsed single child and a list of children are different Python values, and any attribute may be absent.", "anchors": ["src/nempy/historical_inputs/xml_cache.py::XMLCacheManager.get_unit_volume_bids"]}
{"id": "C53", "title": "Price bids in a case file", "statement": "Every trade price structure of every trader in a case file becomes exactly one row of the price bid table, in order, with the unit, the market, its direction or else the one of the trader's type, and the price of every band it has; the columns of the bands it does not have are empty.", "quantifier": "every document with at least two traders whose trades name a known market and have readable numbers and whose traders have a known type", "why_tests_cant": "A document is an arbitrary tree, with any set of attributes and any number of trades per trader.", "anchors": ["src/nempy/historical_inputs/xml_cache.py::XMLCacheManager.get_unit_price_bids"]}
{"id": "C54", "title": "State of the units in a case file", "statement": "Every trader has one row of initial conditions with its type, its AGC status, its telemetered ramp rates and its output, which in a period with an intervention is the output it would have without it; a condition that is not there is missing. The fast start parameters have one row for exactly the traders with a mode, with their profile and the what-if mode and time wherever the document has them. The forecasts have one row for exactly the units with one.", "quantifier": "every document with at least two traders and trader periods, at least two conditions per trader, and readable numbers", "why_tests_cant": "Universal over documents, including which attributes and conditions are there.", "anchors": ["src/nempy/historical_inputs/xml_cache.py::XMLCacheManager.get_unit_initial_conditions", "src/nempy/historical_inputs/xml_cache.py::XMLCacheManager.get_unit_fast_start_parameters", "src/nempy/historical_inputs/xml_cache.py::XMLCacheManager.get_UIGF_values", "src/nempy/historical_inputs/xml_cache.py::XMLCacheManager.is_intervention_period"]}
{"id": "C55", "title": "Constraints and market link offers in a case file", "statement": "The tables of right-hand sides, types and left-hand sides of the generic constraints are exactly those the document states: the right-hand sides of the run without intervention, one type per constraint and one row per term, whether a constraint has no term, one or many. The market link offers are exactly those of the interconnectors that are market interconnectors.", "quantifier": "every document with at least two constraints and constraint solutions, at least two offers per market interconnector, and readable numbers", "why_tests_cant": "Universal over documents: the code handles no term, a single term and a list of terms in different branches.", "anchors": ["src/nempy/historical_inputs/xml_cache.py::XMLCacheManager.get_constraint_rhs", "src/nempy/historical_inputs/xml_cache.py::XMLCacheManager.get_constraint_type", "src/nempy/historical_inputs/xml_cache.py::XMLCacheManager.get_constraint_region_lhs", "src/nempy/historical_inputs/xml_cache.py::XMLCacheManager.get_constraint_unit_lhs", "src/nempy/historical_inputs/xml_cache.py::XMLCacheManager.get_constraint_interconnector_lhs", "src/nempy/historical_inputs/xml_cache.py::XMLCacheManager.get_market_interconnector_link_bid_availability"]}
{"id": "C56", "title": "Violations and violation prices in a case file", "statement": "The violations are those of the pricing run, which in a period with an intervention is the run without it, taken from the period solution where it has them and from the case solution otherwise. The violation prices are those of the case.", "quantifier": "every document in which both solutions are single or both are several with exactly one of each in the pricing run, and readable numbers", "why_tests_cant": "Universal over documents, with and without an intervention and over the order of the solutions.", "anchors": ["src/nempy/historical_inputs/xml_cache.py::XMLCacheManager.get_violations", "src/nempy/historical_inputs/xml_cache.py::XMLCacheManager.get_constraint_violation_prices"]}
{"id": "C57", "title": "Service prices in a case file", "statement": "The service prices have exactly one row for every region and every market that its solution in the pricing run has a price for.", "quantifier": "every document with at least two region solutions", "why_tests_cant": "Universal over documents, with and without an intervention and over which prices are there.", "anchors": ["src/nempy/historical_inputs/xml_cache.py::XMLCacheManager.get_service_prices"]}
{"id": "C58", "title": "Regions and loss factors of units", "statement": "The unit info has exactly one row for every unit and direction with a price bid, details and an initial condition, with the region of its details. Its loss factor is the distribution loss factor times the transmission loss factor, or times the secondary one for the generating side of a two-way unit that has one.", "quantifier": "every set of historical input tables whose price bids have known directions; one row for each unit in the details and the initial conditions for the absence of repeats", "why_tests_cant": "Universal over tables, units with one or two sides and with or without a secondary loss factor.", "anchors": ["src/nempy/historical_inputs/units.py::UnitData.get_unit_info"]}
{"id": "C59", "title": "Processed bids carry the bids of the case file", "statement": "The volume and price bids given to a market have the same keys and no repeats. Every energy bid of a unit in the unit info is there, and an FCAS bid exactly if it is enabled. Volumes are those of the file, prices those of the file with energy prices referred to the regional reference node. In a market with these tables every band costs what the file says and energy dispatch stays within the volumes of the file.", "quantifier": "every set of historical input tables with one price bid for each volume bid and one row for each unit in the others; every history of market calls in which the tables are in force, and every solution", "why_tests_cant": "Universal over tables, bands, histories of market calls and solutions.", "anchors": ["src/nempy/historical_inputs/units.py::UnitData.get_processed_bids", "src/nempy/historical_inputs/units.py::_format_volume_bids", "src/nempy/historical_inputs/units.py::_format_price_bids", "src/nempy/historical_inputs/units.py::UnitData._unscale_price_bids"]}
{"id": "C60", "title": "FCAS trapeziums of the case file", "statement": "The trapeziums are given exactly when the bids were processed and the trapeziums added after that, in any order and number of calls. Regulation and contingency trapeziums partition the FCAS offers and the maximum availabilities have the same rows. Every trapezium is one of the file, tightened to the AGC limits, the ramp rate and the forecast of the unit, and it is of a unit that has a bid for the service.", "quantifier": "every set of historical input tables with one price bid for each volume bid, and every sequence of calls", "why_tests_cant": "Universal over sequences of calls and over tables.", "anchors": ["src/nempy/historical_inputs/units.py::UnitData.add_fcas_trapezium_constraints", "src/nempy/historical_inputs/units.py::UnitData.get_fcas_max_availability", "src/nempy/historical_inputs/units.py::UnitData.get_fcas_regulation_trapeziums", "src/nempy/historical_inputs/units.py::UnitData.get_contingency_services"]}
{"id": "C61", "title": "Bid availability and ramp rates of units", "statement": "The bid availability has exactly one row for each energy bid, without those of units with a forecast in cases of the older kind. The bid ramp rates have exactly one row for each energy bid with an initial condition. The SCADA ramp rates have exactly one row for each initial condition with a rate up or down.", "quantifier": "every set of historical input tables with one price bid for each volume bid", "why_tests_cant": "Universal over tables, with and without missing rates.", "anchors": ["src/nempy/historical_inputs/units.py::UnitData.get_unit_bid_availability", "src/nempy/historical_inputs/units.py::UnitData.get_bid_ramp_rates", "src/nempy/historical_inputs/units.py::UnitData.get_scada_ramp_rates"]}
{"id": "C62", "title": "Directions of volume bids", "statement": "Every volume bid gets the direction of its price bid and is otherwise unchanged; one that has a direction keeps it. No volume bid is lost or repeated.", "quantifier": "every list of volume bids and of price bids", "why_tests_cant": "Universal over tables, with directions given, missing and partly missing.", "anchors": ["src/nempy/historical_inputs/units.py::UnitData._map_direction_to_volume_bids", "src/nempy/historical_inputs/units.py::UnitData.get_unit_bid_availability"]}
{"id": "C63", "title": "Right hand side calculator set up from the case file", "statement": "The calculator's inputs are exactly those of the case file: the SCADA value of an id is the sum of all its values, good or bad; initial outputs are those of the run without intervention; entered values and the availabilities of market interconnectors belong to their ids and directions. Its equations are those of the constraints and generic equations that have terms, in order. A constraint without operations gets the sum of multiplier times value over the terms of the document, and the stated right hand side is that of the run without intervention.", "quantifier": "every case file whose collections have at least two elements, whose ids are not repeated and whose numbers are readable; every constraint and input in it", "why_tests_cant": "Universal over documents: any number of SCADA sets with one or many values, of equations with one or many terms, of interconnectors.", "anchors": ["src/nempy/historical_inputs/rhs_calculator.py::RHSCalc.__init__", "src/nempy/historical_inputs/rhs_calculator.py::RHSCalc._reformat_scada_data", "src/nempy/historical_inputs/rhs_calculator.py::RHSCalc._format_mnsp_availability", "src/nempy/historical_inputs/rhs_calculator.py::RHSCalc.get_nemde_rhs"]}
{"id": "C64", "title": "A market built from a case file trades its bids", "statement": "In a market whose tables come from a case file through the loader and the unit data, each energy band of a unit has one variable that costs the PriceBand of its price trade (minus it on the load side), whatever the loss factor, and is dispatched between zero and the BandAvail of the matching volume trade. FCAS bands cost their PriceBand. The energy dispatch of a side is at most the MaxAvail of its trade, that of a semi-scheduled unit at most its forecast, and a one-sided unit moves from its initial output by at most the smaller of bid and measured ramp rate.", "quantifier": "every readable case file in which price trades have all bands, volume trades a MaxAvail and every trade one partner; every unit detail and AGC table without repeated units; every market in which the calls are in force and every feasible assignment", "why_tests_cant": "Universal over documents, market histories and solutions; a test compares one interval.", "anchors": ["src/nempy/historical_inputs/units.py::UnitData.__init__", "src/nempy/historical_inputs/loaders.py::RawInputsLoader.get_unit_volume_bids", "src/nempy/historical_inputs/units.py::UnitData.get_processed_bids", "src/nempy/markets.py::SpotMarket.set_unit_price_bids"]}
{"id": "C65", "title": "The constraints of a case file hold in the market", "statement": "When the constraint tables read from an NEMDE case file are given to the market (generic constraints without regional terms, FCAS requirements from those with regional terms, and the links of units and interconnectors), every solution of the dispatch problem satisfies every constraint invoked in the pricing run of the file: the sum of its trader and interconnector terms, each with its factor, plus the supply of its regions, is related to its right-hand side in the file the way its type (LE, EQ, GE) says.", "quantifier": "All documents that state constraints with unique ids and known types and trade types, all markets with these tables in force without violation costs whatever else was set, all solutions, all invoked constraints that have at least one variable in the market; regional terms are for ancillary services and count with factor one (their factors are lost, see C46).", "why_tests_cant": "The tests compare single tables or single dispatch results; none follows an arbitrary constraint from the file through the tables, the links and the assembled problem to the dispatch.", "anchors": ["/repo/src/nempy/historical_inputs/constraints.py:65-87", "/repo/src/nempy/historical_inputs/xml_cache.py:720-1010", "/repo/src/nempy/markets.py:2290-2620", "/repo/src/nempy/solver_interface.py:100-245"]}
{"id": "C66", "title": "Elastic limits hold when nothing is violated", "statement": "Making constraints elastic, with the call that sets them or later with make_constraints_elastic, any number of times and at any cost, changes nothing for a solution whose violation variables of these constraints are zero: capacities, forecasts, ramp rates, maximum availabilities, joint ramping, trapeziums, fast start profiles, the regional energy balance, FCAS requirements and generic constraints, also those read from a case file, hold exactly as they would without costs.", "quantifier": "All histories of calls in which the constraints were set and later touched only by make_constraints_elastic, all costs and cost tables, all solutions with zero violation variables for these constraints.", "why_tests_cant": "The tests compare the dispatch of a few markets; they cannot show that the extra variables of an arbitrary elastic constraint leave it unchanged at zero in every market and solution.", "anchors": ["/repo/src/nempy/markets.py:2616-2749", "/repo/src/nempy/spot_market_backend/elastic_constraints.py:1-114"]}
{"id": "C67", "title": "Reported prices are marginal costs", "statement": "If the solver returns shadow prices of the linear problem, then the energy price reported for a region is a lower bound on the cost per MW of serving more, and an upper bound on the saving per MW of serving less, in that region: any point within the bounds that keeps the other constraints and the violations and changes the regional balance by delta costs at least the dispatch plus price times delta. The same holds for changes of several regions at once, and for an FCAS price and the sets that ask for that service in that region.", "quantifier": "All histories of calls with demand (or FCAS requirements) in force, also made elastic; all networks with losses; the linear problem and its over-constrained re-run; all shadow prices, all alternative points and all sizes of change. Energy: regions somebody supplies.", "why_tests_cant": "The tests compare prices of a few markets with numbers; that a price bounds the cost of every possible change needs a proof over all points of all problems.", "anchors": ["/repo/src/nempy/markets.py:3076-3143", "/repo/src/nempy/spot_market_backend/solver_interface.py:391-454"]}
{"id": "C68", "title": "Dispatch agrees with reported prices", "statement": "A price band whose other constraints have no shadow price is dispatched in full if it costs less, at the regional reference node, than the reported price, and not at all if it costs more. For loads the signs are reversed, and for FCAS the bid price itself is compared with the reported FCAS price.", "quantifier": "All histories with demand or FCAS requirements in force and bids set with volumes of at least 1/10000; all units with a non-zero loss factor; all shadow prices of the problem.", "why_tests_cant": "The tests look at dispatch and prices separately, in a few markets; agreement for every band of every market needs a proof.", "anchors": ["/repo/src/nempy/markets.py:3076-3143", "/repo/src/nempy/spot_market_backend/objective_function.py:1-140"]}
{"id": "C69", "title": "No arbitrage between regions", "statement": "At the reported energy prices no change of flows that costs nothing earns anything. For a single link the gain of sending df more, valued with the loss factors of its ends, is at most the value of the additional losses. If a link's flow is strictly within its bounds and no other constraint on it has a price, the prices of its two ends agree up to the loss factors.", "quantifier": "All histories with demand in force in supplied regions, all networks with or without losses whose links join different regions, all shadow prices, all shifts of flows.", "why_tests_cant": "The tests check prices of a few two-region markets.", "anchors": ["/repo/src/nempy/spot_market_backend/interconnectors.py:1-260", "/repo/src/nempy/markets.py:3076-3143"]}
{"id": "C70", "title": "Violation costs cap the prices", "statement": "The shadow price of an elastic constraint never exceeds its violation cost in size, and is not negative for >= and not positive for <=. In particular all reported energy prices lie between plus and minus the violation cost of demand.", "quantifier": "All histories in which the group was made elastic with a cost for every row, all shadow prices of the linear problem and of its over-constrained re-run.", "why_tests_cant": "The tests price a few markets; that the cap is never broken needs a proof over all problems.", "anchors": ["/repo/src/nempy/markets.py:2616-2749", "/repo/src/nempy/markets.py:3076-3143"]}
{"id": "C71", "title": "Dispatch finds a price for every market constraint", "statement": "After the problem is solved, a price is found for every row of every group of market constraints.", "quantifier": "All markets whose problem assembles and has shadow prices.", "why_tests_cant": "The tests only have regions with units or links and requirements somebody offers; a constraint without variables is never added to the model, and reading its price fails.", "anchors": ["/repo/src/nempy/markets.py:3082-3088", "/repo/src/nempy/markets.py:3136-3143", "/repo/src/nempy/spot_market_backend/solver_interface.py:451-454"]}
{"id": "C72", "title": "Dispatch records an optimal solution and the prices of its problem", "statement": "If dispatch returns, the values recorded are an optimal solution of the problem assembled from the market, the objective value is its cost, the slacks are the distances of its constraints from being tight, and every market constraint carries the shadow price of the linear pricing problem for these values, or of its re-run exactly when a re-run was asked for, a price is at or beyond a limit and a generic or FCAS constraint is violated by more than 0.0001. If dispatch raises before the solve succeeded, all earlier results stand.", "quantifier": "All markets reached by calls, all arguments, all earlier results, all solvers whose solutions are optimal and whose prices are shadow prices.", "why_tests_cant": "The tests compare a few dispatches with known results; that values, slacks, objective and prices belong together holds for every market and every order of groups.", "anchors": ["/repo/src/nempy/markets.py:2935-3145", "/repo/src/nempy/spot_market_backend/solver_interface.py:290-296", "/repo/src/nempy/spot_market_backend/solver_interface.py:341-454"]}
{"id": "C73", "title": "The constraints named after a failed dispatch are in the way", "statement": "If the solver finds no solution, the constraints that find_problem_constraint returns are constraints without which it finds one, and each of them is needed for that.", "quantifier": "All problems and all solvers.", "why_tests_cant": "No test looks at the message; which constraints are named depends on the order of all constraints of the problem.", "anchors": ["/repo/src/nempy/spot_market_backend/solver_interface.py:290-296", "/repo/src/nempy/spot_market_backend/solver_interface.py:472-481"]}
{"id": "C74", "title": "Recorded prices are prices of the recorded dispatch", "statement": "The recorded prices are shadow prices at the recorded dispatch, so a band that is cheaper than the price of its region is dispatched in full and a dearer one is not dispatched.", "quantifier": "All markets reached by calls, dispatched without a re-run by a solver whose solutions are optimal and whose prices are shadow prices.", "why_tests_cant": "Prices come from another problem than the dispatch. The two solutions differ only where losses pay, at negative prices.", "anchors": ["/repo/src/nempy/markets.py:3053-3088", "/repo/src/nempy/markets.py:3147-3171"]}
{"id": "C75", "title": "At the reported prices no units would rather run differently", "statement": "Valued at the reported energy and FCAS prices, the dispatch behind the prices earns every group of units at least as much as any other operation of these units that their limits allow: income for energy and reserves together, less what their own price bids ask. Units that could stay idle are paid at least what they ask.", "quantifier": "All markets reached by calls with demand and FCAS requirements (or demand alone), with losses, links, limits and re-runs, all groups of units and all other operation within the bounds of the bids that keeps every constraint which is neither an energy balance nor an FCAS requirement met (or unpriced) and leaves what is linked to the FCAS requirement sets as it is; the dispatch is the solution of the problem that is priced, which in markets without losses is the recorded dispatch.", "why_tests_cant": "Quantifies over all groups of units and all alternatives they have; a test compares a price with one known value.", "anchors": ["/repo/src/nempy/markets.py:3053-3171", "/repo/src/nempy/markets.py:3250-3395"]}
{"id": "C76", "title": "Prices do not fall when demand rises, and bound what the rise costs", "statement": "When demand is set again and the market is run once more, the change of the dispatch cost lies between the value of the change of demand at the prices before and its value at the prices after. In particular, if demand rises in one region only, the reported price of that region does not fall.", "quantifier": "All markets without interconnector losses and special ordered sets reached by calls, with demand that is not elastic and regions that something supplies, any bids, limits, FCAS and generic constraints; all new demand tables for the same regions; all sound solvers, which may differ between the two runs; and the recorded dispatches and prices of both runs.", "why_tests_cant": "Compares two runs of any market over all demand tables, where every solver choice among equally good optima and prices is allowed; a test runs one demand against one solver.", "anchors": ["/repo/src/nempy/markets.py:1064-1145", "/repo/src/nempy/markets.py:3003-3171", "/repo/src/nempy/markets.py:3250-3283"]}
{"id": "C77", "title": "A call that sets constraints changes these constraints and nothing else", "statement": "After an accepted call that sets constraints without violation cost, the problem has the variables, bounds, costs and ordered sets of the problem before; its solutions are the points that keep these, every constraint of the groups the call does not set, and the constraints the call set. Hence constraints set for the first time never make the optimal or the recorded dispatch cheaper, and an optimal dispatch that already keeps them stays optimal.", "quantifier": "All markets reached by calls, all eleven methods that set constraints (capacity, forecast, ramp rates, fast start, demand, FCAS requirements and availability, joint ramping, joint capacity, regulation capacity, generic) with any accepted tables, for the first time or again, provided both problems can be built; all points, all sound solvers.", "why_tests_cant": "That nothing else changes speaks about every other constraint of every market and every point; a test looks at one dispatch after one call.", "anchors": ["/repo/src/nempy/markets.py:424-1145", "/repo/src/nempy/markets.py:1153-1884", "/repo/src/nempy/markets.py:2286-2371", "/repo/src/nempy/markets.py:2925-3035"]}
{"id": "C78", "title": "The order in which different constraints are set does not matter", "statement": "Take a list of constraint calls that is accepted on a market. Any other list that makes, about each group of constraints, the same calls in the same order is accepted as well, and the two markets have the same dispatches: every point of the one problem is, up to violation variables, a point of the other with the same cost, and optimal points correspond to optimal points.", "quantifier": "All markets reached by calls; all lists, of any length, of calls of the twelve methods that set constraints (capacity, forecast, ramp rates, fast start, demand, FCAS requirements and availability, joint ramping, joint capacity, regulation capacity, generic, tie break) and of make_constraints_elastic, with any tables and violation costs that are accepted; all rearrangements that keep the order of the calls about a common group; generic tables not empty.", "why_tests_cant": "The number of rearrangements grows with the factorial of the number of calls, and the constraint and variable numbers differ in each; a test compares a few orders for a few tables.", "anchors": ["/repo/src/nempy/markets.py:424-1145", "/repo/src/nempy/markets.py:1153-1884", "/repo/src/nempy/markets.py:2286-2371", "/repo/src/nempy/markets.py:2616-2742", "/repo/src/nempy/markets.py:2757-2854", "/repo/src/nempy/markets.py:2925-3035"]}
{"id": "C79", "title": "The optimisation problem admits exactly the dispatch that obeys every call", "statement": "After a history of accepted calls, the problem that dispatch() hands to the solver is satisfied by an assignment of the decision variables if and only if the dispatch it stands for obeys the documented rule of every call: band volumes, unit capacities, forecasts, ramp rates with SCADA limits, fast start profiles, FCAS maximum availability, joint ramping, joint capacity and energy-regulation trapeziums, regional energy balances, FCAS requirements, generic constraints with their links, interconnector limits and the rule that only one of several links carries flow. No rule is lost and none is added, so the problem is infeasible exactly when no dispatch obeys all the calls.", "quantifier": "For all unit tables and regions, all lists of accepted calls of any length that set each table and each constraint group at most once, and all assignments. Calls are hard constraints (no violation costs), without losses, tie breaking and removal of fast start constraints; ramp rates and joint ramping outside of fast start runs. Bidirectional units are covered in bids, capacities, balances, requirements, ramp limits (net output, with rates of both sides that are not negative and one initial output) and joint ramping (units offering a regulation service on both sides or neither); they are left out of the joint capacity and fast start tables and of the load side of energy-regulation trapeziums. Trapezium maximum availabilities and fast start mode lengths that are divided by are positive; links join different regions; FCAS requirements name FCAS services.", "why_tests_cant": "A test checks that one optimum comes out as expected. It can not see a constraint that was dropped, doubled or given a wrong neighbour's variables unless it binds at that optimum, and it can not see additional requirements that exclude other permitted dispatch. The equivalence is about all assignments of all markets.", "anchors": ["/repo/src/nempy/markets.py:2942-3049", "/repo/src/nempy/spot_market_backend/solver_interface.py:60-200", "/repo/src/nempy/spot_market_backend/unit_constraints.py", "/repo/src/nempy/spot_market_backend/fcas_constraints.py", "/repo/src/nempy/spot_market_backend/market_constraints.py"]}
{"id": "C80", "title": "A call does what its tables say, cell by cell", "statement": "The market building calls act on exactly the values in the caller's tables. A call on tables either refuses them and leaves the market as it was, or has the effect of the rows that the tables stand for: as many rows as the table has, in their order, each field the cell of the documented column, and the documented value where an optional column is left out (dispatch type generator, service energy, requirement type =, loss factors 1, link the interconnector, unknown SCADA rates null, bands all other columns). A history of accepted calls on tables is the history of those rows. Tables of real numbers always get an answer. The constructor takes the units of the market from its table in the same way.", "quantifier": "All calls of the 21 market building methods with any tables (any number of rows and columns, any cells) and any violation cost that is a number or a table that fits, on all markets; all lists of accepted calls; for the answer: all tables without infinities and with nulls only where rates or times may be unknown.", "why_tests_cant": "The tests check a handful of tables per method by comparing the frames built from them; that no column is mixed up, no row lost and no default changed for any table is a statement about all tables.", "anchors": ["src/nempy/markets.py:92-148", "src/nempy/markets.py:150-2853", "src/nempy/spot_market_backend/variable_ids.py:129-141", "src/nempy/spot_market_backend/dataframe_validator.py:13-120"]}
{"id": "C81", "title": "The columns and types asked of a table are the documented ones", "statement": "A table that has the columns its docstring lists, with the types the docstring gives, is never refused for an unexpected column, a missing column or the type of a column; and a table that is accepted has the documented columns and types and no others.", "quantifier": "All tables of all market building calls and of the constructor, for all markets, whether or not dispatch types are given in the unit information; violation cost tables, if given, in order.", "why_tests_cant": "The tests exercise tables as the authors write them; whether the documentation and the schemas describe the same tables is a statement about all tables, and the doctests use the types the schemas ask for, not those documented.", "anchors": ["src/nempy/markets.py:56-68", "src/nempy/markets.py:222-240", "src/nempy/markets.py:734-797", "src/nempy/markets.py:985-1062", "src/nempy/markets.py:1434-1447", "src/nempy/markets.py:1603-1609", "src/nempy/markets.py:2159-2184", "src/nempy/markets.py:2276-2284"]}
{"id": "C82", "title": "Dispatch answers to price bids in the right direction", "statement": "Take two histories of calls on a SpotMarket that differ only in the table given to set_unit_price_bids. If the tables differ in the price of one band only, an optimal dispatch of the market where the band asks for more dispatches this band no more than an optimal dispatch of the other market does; a load that bids more for energy is not served less. The change of the least cost lies between what the new prices make of the new dispatch and of the old dispatch, and if no offer gets better the least cost does not fall.", "quantifier": "All markets and histories without ties set after the prices, all volume and price tables, all optimal dispatches of both problems (or all recorded dispatches of sound solvers), all services and bands; positive loss factors and registered units for the direction.", "why_tests_cant": "Tests compare a few dispatches with recorded numbers; the claim compares every pair of price tables, and a sign or loss factor error in one service or side changes results only for bids that no test moves.", "anchors": ["src/nempy/markets.py:397-404", "src/nempy/spot_market_backend/objective_function.py", "src/nempy/spot_market_backend/solver_interface.py"]}
{"id": "C83", "title": "The order of rows and of calls does not change the dispatch", "statement": "Take two histories of accepted calls on a SpotMarket that make the same calls, with the rows of every table (and the band columns of bids and the rows of unit_info) in any order, and the calls in any order. Every dispatch, band by band and link by link with its losses, that the problem built by one of them admits is admitted by the problem built by the other, at the same cost; so the optimal dispatches and the least cost are the same.", "quantifier": "All unit_info tables, all pairs of histories in the scope of C79 or, with interconnector losses, of C88 (each table set at most once, no violation costs or tie breaks, two-sided units as there), all row and call orders for which both histories are accepted; the rows of a FCAS requirement set agree on volume and type (the code takes the first row's values).", "why_tests_cant": "There are factorially many orders; ids, joins on positions, drop_duplicates and cumulative sums all depend on row order internally, and tests pass each table in one order only.", "anchors": ["src/nempy/markets.py", "src/nempy/spot_market_backend/variable_ids.py:140-149", "src/nempy/spot_market_backend/market_constraints.py:97-190", "src/nempy/spot_market_backend/unit_constraints.py", "src/nempy/spot_market_backend/solver_interface.py"]}
{"id": "C84", "title": "With violation costs dispatch weighs the bids against what the rules are missed by", "statement": "For any collection of constraint groups that were given violation costs, an assignment that satisfies everything else can be completed with violation variables to a solution of the problem whose cost is the cost of the remaining variables plus, for each soft constraint, its violation cost times the amount by which it is missed; no solution costs less than that. So an optimal solution minimises bid cost plus penalties over all assignments that satisfy the hard constraints, its objective value is exactly that sum, every such minimum belongs to an optimal solution, and soft constraints alone never make the problem infeasible.", "quantifier": "For all markets reached by calls, all collections of distinct constraint groups whose last call gave every row a violation cost of at least zero (one number or a table that names each set once), all assignments. With a negative violation cost, which is accepted, the cost has no lower bound (C84_negative_cost_unbounded).", "why_tests_cant": "The tests show single markets in which one constraint is violated; that the penalty terms of all groups together equal cost times shortfall for every assignment, and that no cheaper way out exists, is a statement over all solutions.", "anchors": ["src/nempy/markets.py:2616-2749", "src/nempy/spot_market_backend/elastic_constraints.py:7-114", "src/nempy/markets.py:3015-3018"]}
{"id": "C85", "title": "Ramping over consecutive intervals", "statement": "When every interval's ramp details are built by construct_ramp_rate_parameters from the unit dispatch reported for the interval before and passed to set_unit_ramp_rate_constraints, then from one interval to the next a unit's energy rises by at most its ramp up rate and falls by at most its ramp down rate times the interval length, and after any number of intervals it lies within the sum of these steps of where it started.", "quantifier": "every sequence of intervals of any length, every market, history and feasible dispatch in each interval, every rate table with or without SCADA rates; units with energy bids on one side, ramp constraints without violation cost", "why_tests_cant": "Sequences of any length and every combination of markets; needs induction over intervals and the meaning of report, ramp table and constraint together.", "anchors": ["src/nempy/time_sequential.py::construct_ramp_rate_parameters", "src/nempy/markets.py::SpotMarket.set_unit_ramp_rate_constraints", "src/nempy/markets.py::SpotMarket.get_unit_dispatch"]}
{"id": "C86", "title": "Historical ramp rates fit the time sequential functions", "statement": "The ramp details that construct_ramp_rate_parameters and create_seed_ramp_rate_parameters build from a table of ramp rates have the columns unit and initial_output and those of the table, so that set_unit_ramp_rate_constraints accepts their columns; this holds in particular for the ramp rates that get_bid_ramp_rates returns.", "quantifier": "every ramp rate table", "why_tests_cant": "The documented example needs downloaded data and is not run by the tests; the clash depends on the columns of two modules.", "anchors": ["src/nempy/time_sequential.py::construct_ramp_rate_parameters", "src/nempy/time_sequential.py::create_seed_ramp_rate_parameters", "src/nempy/historical_inputs/units.py::UnitData.get_bid_ramp_rates", "src/nempy/markets.py::SpotMarket._validate_ramp_rates"]}
{"id": "C87", "title": "Hard rules hold exactly beside constraints with violation costs", "statement": "When some constraint groups were given violation costs, in the call that set them or by make_constraints_elastic, the problem dispatch builds requires of everything else exactly the rules of the calls without violation costs: setting the elastic constraints aside, an assignment satisfies it if and only if it obeys each of those calls. The problem is infeasible exactly when those calls contradict each other, and an optimum minimises the cost of the bids plus the penalties for missed constraints over all dispatch that obeys them.", "quantifier": "every config, every history of accepted calls that sets each table and group at most once, any groups made elastic with costs that are not negative for every constraint; groups set by one call elastic together; the calls without violation cost as in C79 (no interconnector losses, bidirectional units as there)", "why_tests_cant": "Needs all histories and all assignments, and an exact description of the feasible set when hard and elastic groups are mixed; tests compare a few dispatch results.", "anchors": ["src/nempy/markets.py::SpotMarket.make_constraints_elastic", "src/nempy/markets.py::SpotMarket.dispatch", "src/nempy/spot_market_backend/elastic_constraints.py::create_deficit_variables", "src/nempy/spot_market_backend/solver_interface.py::InterfaceToSolver"]}
{"id": "C88", "title": "Dispatch with interconnector losses obeys exactly the rules of the calls", "statement": "Take a new market and any sequence of accepted calls in which no table or group is set twice, with interconnector losses and with or without violation costs. The problem that dispatch builds, its soft groups set aside, is satisfied by an assignment for some choice of the interpolation weights exactly when the assignment obeys the rule of every call without a violation cost: the rules of C79 and C87, the energy balance of every supplied region with its share of the losses, and for every link with a loss function that the loss lies on the straight line between two neighbouring break points and is in size at most the larger of the two flow limits. The problem is infeasible exactly when no dispatch obeys these rules. An optimum obeys them and, among all dispatch that obeys them, minimises the cost of the bids plus the penalties for missed soft constraints. Conversely a dispatch that does so extends, with weights and violations chosen, to an optimum.", "quantifier": "for all market configurations, all histories of accepted calls in the scope of C87 extended by interconnector losses (every break point belongs to a link with a loss function; a link with a loss function has at least two break points, which rise along the segments; the weights are not made elastic), all loss functions and all assignments", "why_tests_cant": "Tests solve single markets and compare a few numbers with a tolerance; they cannot show that the weight, flow, loss and SOS2 constraints together allow exactly the interpolated losses for every loss function, every set of break points and every mixture of calls.", "anchors": ["src/nempy/markets.py::SpotMarket.set_interconnector_losses", "src/nempy/markets.py::SpotMarket.dispatch", "src/nempy/spot_market_backend/interconnectors.py::create_loss_variables", "src/nempy/spot_market_backend/interconnectors.py::create_weights", "src/nempy/spot_market_backend/interconnectors.py::link_weights_to_inter_flow", "src/nempy/spot_market_backend/interconnectors.py::link_inter_loss_to_interpolation_weights", "src/nempy/spot_market_backend/solver_interface.py::InterfaceToSolver"]}
{"id": "C89", "title": "make_constraints_elastic accepts exactly the documented costs", "statement": "Making a constraint set elastic succeeds exactly when the cost is a number, or a table that has one row per set, for constraints that belong to sets. Any other argument is refused with the documented exception (ModelBuildError for an unknown key, RepeatedRowError for a set with more than one row, MissingColumnError for constraints without a set, ValueError for an argument that is neither a number nor a table) and the market is left unchanged.", "quantifier": "every market state, every constraint key whose constraints have the types <=, >= or =, every argument (false: a set with two different costs is accepted and violated at the cheaper one, and two of the documented exceptions are KeyErrors)", "why_tests_cant": "Tests try one cost table per method; the claim covers every key, every table and every state, and says that a refusal changes nothing.", "anchors": ["src/nempy/markets.py::SpotMarket.make_constraints_elastic", "src/nempy/markets.py::SpotMarket._validate_violation_cost"]}
{"id": "C90", "title": "The cost that dispatch records is settled by the calls, not by the solver or by the order of rows and calls", "statement": "Take two markets built by the same calls, with the rows of the tables, the bands and the calls in any order, and dispatch each with any solver that only returns optimal solutions. If both dispatches succeed, the objective values they record are equal; and if the cheapest dispatch of the first market is unique, the recorded dispatch of every band, flow of every link and loss of every link are equal too. If one of them succeeds, a solver that misses no optimum finds a solution for the other.", "quantifier": "every market state reached by any history of calls (any solver, same market); for the order of rows and calls: every pair of accepted histories that set each part of the market once, with hard constraints, with or without interconnector losses, in the scope of C79; every pair of sound solvers, every dispatch argument, every earlier result", "why_tests_cant": "Tests run one installed solver on tables in one order; the claim is about every solver that meets its contract and every order of rows and calls.", "anchors": ["src/nempy/markets.py::SpotMarket.dispatch", "src/nempy/solver_interface.py::InterfaceToSolver.optimize"]}
{"id": "C91", "title": "Less strict limits never make dispatch dearer", "statement": "Take two markets built by the same calls, where the second has limits that are no stricter: wider flow limits of links, higher or missing capacity limits, forecasts and maximum availabilities, faster ramp rates, reserve requirements and generic constraints with an easier right-hand side, or more volume in the bands on offer; rows and calls may come in another order. Then every dispatch that the first market allows is allowed by the second at the same cost, the least cost of the second is not higher, and neither is the objective value that dispatch records for it.", "quantifier": "every pair of accepted histories that set each part of the market once, with hard constraints, with or without interconnector losses, in the scope of C79, with a dispatch interval that is not negative, related by eased_calls (ramp rates may differ for units with one row of them; the same bands are below the volume that the code drops); every pair of sound solvers, every dispatch argument", "why_tests_cant": "Tests compare a handful of dispatch results with fixed numbers; the claim compares every pair of markets of which one is less strict, and would fail for a limit with a wrong sign in any of the constraint sets.", "anchors": ["src/nempy/markets.py::SpotMarket.set_unit_volume_bids", "src/nempy/markets.py::SpotMarket.set_unit_bid_capacity_constraints", "src/nempy/markets.py::SpotMarket.set_unconstrained_intermittent_generation_forecast_constraint", "src/nempy/markets.py::SpotMarket.set_fcas_requirements_constraints", "src/nempy/markets.py::SpotMarket.set_fcas_max_availability", "src/nempy/markets.py::SpotMarket.set_interconnectors", "src/nempy/markets.py::SpotMarket.set_generic_constraints", "src/nempy/markets.py::SpotMarket.set_unit_ramp_rate_constraints", "src/nempy/markets.py::SpotMarket.set_joint_ramping_constraints_reg", "src/nempy/markets.py::SpotMarket.dispatch"]}
{"id": "C92", "title": "Price bids that do not rise with the band are refused", "statement": "set_unit_price_bids refuses a table in which a price is lower than the price of an earlier band of the same row, with the documented error BidsNotMonotonicIncreasing; so the bands of a unit are used in their order at the optimum (in the opposite order for the energy of a load).", "quantifier": "every market, every table of price bids; for the order of use every market with price bids in force and no tie-break constraints, every optimum, every pair of bands of a unit's service", "why_tests_cant": "A test of the validator has to think of this rule; none of them calls the check, so a check that is written but never run goes unnoticed. Whether acceptance depends on the prices at all is a claim about every table.", "anchors": ["src/nempy/markets.py::SpotMarket.set_unit_price_bids", "src/nempy/markets.py::SpotMarket._validate_price_bids", "src/nempy/spot_market_backend/dataframe_validator.py::DataFrameSchema.validate", "src/nempy/spot_market_backend/dataframe_validator.py::DataFrameSchema._check_row_monatonic_increasing"]}
{"id": "C93", "title": "Values that are documented to be refused are refused", "statement": "A call whose table has an infinite, null, negative or too large value in a column for which the docstring lists this as an error is refused and leaves the market unchanged; losses for interconnectors that are not in the market are refused with the documented ModelBuildError.", "quantifier": "every market, every call on tables, every cell of every column with a documented rule; every market without interconnectors for the second part", "why_tests_cant": "Each rule concerns one cell in any row and column of 20 kinds of tables; the existing tests pass tables that are in order. A rule that is documented and not checked shows up only when documentation and schemas are compared for every column.", "anchors": ["src/nempy/markets.py::SpotMarket.set_unit_bid_capacity_constraints", "src/nempy/markets.py::SpotMarket.set_unconstrained_intermittent_generation_forecast_constraint", "src/nempy/markets.py::SpotMarket.set_unit_ramp_rate_constraints", "src/nempy/markets.py::SpotMarket.set_demand_constraints", "src/nempy/markets.py::SpotMarket.set_fcas_requirements_constraints", "src/nempy/markets.py::SpotMarket.set_joint_ramping_constraints_reg", "src/nempy/markets.py::SpotMarket.set_joint_capacity_constraints", "src/nempy/markets.py::SpotMarket.set_energy_and_regulation_capacity_constraints", "src/nempy/markets.py::SpotMarket.set_interconnector_losses", "src/nempy/spot_market_backend/dataframe_validator.py::SeriesSchema.validate"]}
{"id": "C94", "title": "Dispatch refuses a market that is not complete", "statement": "dispatch ends with ModelBuildError when the building of the market is incomplete: when nothing has been set, and also when there are energy bids but no energy demand. The functions that give the dispatch and the energy prices then do the same.", "quantifier": "All configurations, all histories of calls, all solvers, arguments of dispatch and earlier results.", "why_tests_cant": "No test can try every history that leaves the demand out, together with every other table that may be set, nor every solver.", "anchors": ["src/nempy/markets.py::SpotMarket.dispatch", "src/nempy/markets.py::SpotMarket.get_energy_prices", "src/nempy/markets.py::SpotMarket.get_unit_dispatch"]}
{"id": "C95", "title": "The price of an FCAS requirement set does not fall when its requirement rises, and bounds what the rise costs", "statement": "When the requirement of one set is set again and the market is run once more, the change of the dispatch cost lies between the change of the requirement times the price of the set before and times the price after. In particular, if the requirement rises, the recorded price of the set does not fall.", "quantifier": "All markets reached by calls, with FCAS requirements that are not elastic, rows of FCAS services that some unit of their region offers, one volume and type for each set, any sets over any regions and services, any bids, limits, demand and generic constraints, with links to units, regions and interconnectors; all new requirement tables that differ in the volume of one set, in any row order; all dispatches with shadow prices; for what dispatch records, markets without interconnector losses and special ordered sets, and all sound solvers, which may differ between the two runs.", "why_tests_cant": "Compares two runs of any market over all requirement volumes, where every solver choice among equally good optima and prices is allowed; a test runs one volume against one solver.", "anchors": ["src/nempy/markets.py::SpotMarket.set_fcas_requirements_constraints", "src/nempy/markets.py::SpotMarket.dispatch", "src/nempy/markets.py::SpotMarket.get_fcas_prices"]}
{"id": "C96", "title": "Fast start profiles made for dispatch have targets that are numbers", "statement": "Every row get_fast_start_profiles_for_dispatch makes from sound profiles has, in the mode it ends in, a target that is a number from zero to the minimum loading, and the right hand sides that set_fast_start_constraints makes are these targets. No row makes the target a division by zero.", "quantifier": "All fast start profiles with modes from 0 to 4, times and lengths that are not negative, all reports of energy dispatch, all rows of the updated table.", "why_tests_cant": "The bad rows need a zero length of mode four together with an interval that passes the end of mode three, and the outcome is a NaN in a column rather than an error; tests use profiles with positive lengths.", "anchors": ["src/nempy/historical_inputs/units.py::UnitData.get_fast_start_profiles_for_dispatch", "src/nempy/historical_inputs/units.py::UnitData._update_modes", "src/nempy/spot_market_backend/unit_constraints.py::fast_start_mode_two_constraints", "src/nempy/spot_market_backend/unit_constraints.py::fast_start_mode_four_constraints", "src/nempy/markets.py::SpotMarket._validate_fast_start_profiles"]}
{"id": "C97", "title": "Slopes of trapeziums and costs at the reference node are numbers", "statement": "The slope coefficients made from the tables of set_joint_capacity_constraints and set_energy_and_regulation_capacity_constraints, and the costs made from price bids and loss factors, are numbers: no table that the checks accept makes one of them a division by zero, and no trapezium made from a case file does.", "quantifier": "All tables of trapeziums, all unit info tables and bids that the checks accept, all case files and orders of calls to the unit data.", "why_tests_cant": "A NaN or infinite coefficient is no error in pandas, and tests use positive availabilities and loss factors; the claim ranges over all accepted tables and all case files.", "anchors": ["src/nempy/spot_market_backend/fcas_constraints.py::joint_capacity_constraints", "src/nempy/spot_market_backend/fcas_constraints.py::energy_and_regulation_capacity_constraints", "src/nempy/spot_market_backend/objective_function.py::scale_by_loss_factors", "src/nempy/markets.py::SpotMarket.set_joint_capacity_constraints", "src/nempy/markets.py::SpotMarket.set_unit_price_bids"]}
{"id": "C98", "title": "A term of type G in front of a group adds its factor times the value of the group", "statement": "An equation that is a term of type G followed by the members of a group evaluates to the multiplier of the first term times the sum of the group, whether or not the first term carries the id of the group.", "quantifier": "All calculators, all equations of a term of type G without operation and one or more members without operation, any ids, multipliers, inputs and defaults.", "why_tests_cant": "Tests evaluate a few fixed equations; this covers every factor, every group and every input, and both places for the id of the group that the comments in the code name.", "anchors": ["src/nempy/historical_inputs/rhs_calculator.py::_rpn_stack", "src/nempy/historical_inputs/rhs_calculator.py::_collect_group", "src/nempy/historical_inputs/rhs_calculator.py::RHSCalc.compute_constraint_rhs"]}
{"id": "C99", "title": "A term of type G that belongs to no group is passed over", "statement": "An equation without groups that contains one term of type G has the sum of its other terms as value, wherever the term of type G stands.", "quantifier": "All calculators, all sums of terms without operation and without group before and after the term of type G, any multipliers, inputs and defaults.", "why_tests_cant": "Tests evaluate a few fixed equations; this covers every sum and every place of the term, including the last place, where the code looks at a term that does not exist.", "anchors": ["src/nempy/historical_inputs/rhs_calculator.py::_rpn_stack", "src/nempy/historical_inputs/rhs_calculator.py::RHSCalc.compute_constraint_rhs"]}
