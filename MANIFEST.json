{
 "claims": [
  {
   "property": "C01",
   "status": "proved",
   "theorems": [
    "C01_printed_coordinate_accurate",
    "C01_plain_words"
   ],
   "note": "Precision up to 4 decimals; coordinates with |x|*10^p <= 10^15."
  },
  {
   "property": "C02",
   "status": "proved",
   "theorems": [
    "C02_printed_canonical",
    "C02_same_text_iff_same_value",
    "C02_precision5_refuted"
   ],
   "note": "Precision up to 4; the failure at precision 5 is C02_precision5_refuted."
  },
  {
   "property": "C03",
   "status": "proved",
   "theorems": [
    "C03_xyz_text",
    "C03_ijk_text"
   ],
   "note": ""
  },
  {
   "property": "C04",
   "status": "proved",
   "theorems": [
    "C04_motion_text",
    "C04_motion_error"
   ],
   "note": "Coordinates up to 10^12, feed printed without exponent."
  },
  {
   "property": "C05",
   "status": "proved",
   "theorems": [
    "C05_arc_radii_agree"
   ],
   "note": "Radii compared as sqrt a <= sqrt b + 0.003 in both directions, for a machine within 0.0005 of the commanded start."
  },
  {
   "property": "C06",
   "status": "proved",
   "theorems": [
    "C06_no_drift"
   ],
   "note": ""
  },
  {
   "property": "C07",
   "status": "proved",
   "theorems": [
    "C07_omitted_axes",
    "C07_no_start",
    "C07_vertical_only",
    "C07_vertical_abs"
   ],
   "note": ""
  },
  {
   "property": "C08",
   "status": "proved",
   "theorems": [
    "C08_complete_program"
   ],
   "note": "Names without parentheses or line breaks, numbers printed without exponent (job_printable)."
  },
  {
   "property": "C09",
   "status": "proved",
   "theorems": [
    "C09_moves_ready"
   ],
   "note": "Shown for rapids too. Reachable jobs: created and extended by fluent calls whose generator yields motion commands."
  },
  {
   "property": "C10",
   "status": "proved",
   "theorems": [
    "C10_user_programs",
    "C10_legal_blocks",
    "C10_empty_motion_refuted"
   ],
   "note": "C10_user_programs: every program of a job made by the methods of Job. C10_legal_blocks: any job whose motions have a coordinate; C10_empty_motion_refuted shows the line printed otherwise (no operation makes such a motion, C103)."
  },
  {
   "property": "C11",
   "status": "partial",
   "theorems": [
    "C11_metric_partial",
    "C11_always_metric",
    "C11_imperial_refuted"
   ],
   "note": "False of the code: the unit setting is never read (C11_imperial_refuted); metric jobs proved, all programs are in mm."
  },
  {
   "property": "C12",
   "status": "partial",
   "theorems": [
    "C12_defaults_partial",
    "C12_settings_ignored",
    "C12_settings_refuted",
    "C12_default_jobs"
   ],
   "note": "False of the code: the settings are never read (C12_settings_refuted, C12_settings_ignored); default settings proved."
  },
  {
   "property": "C13",
   "status": "proved",
   "theorems": [
    "C13_right_tool"
   ],
   "note": "Assumes the machine starts with the job's initial tool."
  },
  {
   "property": "C14",
   "status": "partial",
   "theorems": [
    "C14_speed_partial",
    "C14_speed_refuted"
   ],
   "note": "False before the first tool or speed change: those operations run at the final speed (C14_speed_refuted); proved from the first change on."
  },
  {
   "property": "C15",
   "status": "partial",
   "theorems": [
    "C15_receiver_partial",
    "C15_receiver_refuted",
    "C15_receiver_exactly"
   ],
   "note": "False when the tool argument changes neither tool number nor speed: the receiver is mutated (C15_receiver_refuted); proved otherwise and for all other jobs. C15_receiver_exactly: in that case the receiver always takes the tool's settings."
  },
  {
   "property": "C16",
   "status": "proved",
   "theorems": [
    "C16_append_only"
   ],
   "note": ""
  },
  {
   "property": "C17",
   "status": "partial",
   "theorems": [
    "C17_checks",
    "C17_tool_argument_refuted",
    "C17_zero_diameter",
    "C17_wire_profile_unchecked",
    "C17_wire_profile_refuted"
   ],
   "note": "The checks are characterised exactly (C17_checks). Refuted in part: a diameter given through the tool argument is not looked at; a diameter of 0 passes the check and fails with TypeError; wire_profile has no check and keeps the tool of a failed call."
  },
  {
   "property": "C18",
   "status": "partial",
   "theorems": [
    "C18_never_the_program",
    "C18_no_program",
    "C18_save_refuted"
   ],
   "note": "False of the code for every job: C18_never_the_program, C18_save_refuted."
  },
  {
   "property": "C19",
   "status": "proved",
   "theorems": [
    "C19_offset_value",
    "C19_offset_default",
    "C19_offset_needs_radius"
   ],
   "note": ""
  },
  {
   "property": "C20",
   "status": "proved",
   "theorems": [
    "C20_approach_safe"
   ],
   "note": "If the target is at or above the safe height the approach ends at the safe height instead (stated in the theorem)."
  },
  {
   "property": "C21",
   "status": "proved",
   "theorems": [
    "C21_nearest_on_segment",
    "C21_segment_errors"
   ],
   "note": ""
  },
  {
   "property": "C22",
   "status": "proved",
   "theorems": [
    "C22_nearest_on_path",
    "C22_path_total",
    "C22_path_errors"
   ],
   "note": "Squared distances; the returned fraction is stated squared."
  },
  {
   "property": "C23",
   "status": "proved",
   "theorems": [
    "C23_restart_closed"
   ],
   "note": ""
  },
  {
   "property": "C24",
   "status": "proved",
   "theorems": [
    "C24_pocket_safe",
    "C24_pocket_level"
   ],
   "note": "Rapids are vertical up to the rapid height, horizontal at it, or vertical down to the safe height; cuts at face depth for faces of one depth below the safe height."
  },
  {
   "property": "C25",
   "status": "partial",
   "theorems": [
    "C25_traced_partial",
    "C25_total",
    "C25_visits_partial",
    "C25_chord_refuted"
   ],
   "note": "False of the code: a contour entered by a rapid after another one gets an additional chord (C25_chord_refuted). Proved: tour of every edge plus at most that chord. C25_visits_partial: how every contour is entered and left, and where the chord ends."
  },
  {
   "property": "C26",
   "status": "partial",
   "theorems": [
    "C26_links_partial",
    "C26_gap_refuted",
    "C26_never_linked"
   ],
   "note": "False of the code for stepovers below 1: the squared distance is compared (C26_gap_refuted). Proved for stepovers >= 1. For stepovers above 1 the same comparison never links contours a stepover apart (C26_never_linked): each is lifted to and all but the first get the chord of C25."
  },
  {
   "property": "C27",
   "status": "partial",
   "theorems": [
    "C27_follows_partial",
    "C27_cuts_partial",
    "C27_chord_refuted"
   ],
   "note": "False of the code (C27_chord_refuted). Proved for stepovers >= 1 with a single retract; C27_cuts_partial: all feed moves, without these conditions."
  },
  {
   "property": "C28",
   "status": "partial",
   "theorems": [
    "C28_edge_chain",
    "C28_edge_shape",
    "C28_edge_errors",
    "C28_subrange_refuted",
    "C28_spline_subrange"
   ],
   "note": "Proved for whole edges, and for sub-ranges of lines, circles and arcs; for sub-ranges of splines it is false (C28_subrange_refuted: the first cut of a re-entered spline is not on it). C28_spline_subrange: the whole spline is cut whatever sub-range is asked for."
  },
  {
   "property": "C29",
   "status": "proved",
   "theorems": [
    "C29_arc_direction",
    "C29_arc_direction_by_points"
   ],
   "note": ""
  },
  {
   "property": "C30",
   "status": "partial",
   "theorems": [
    "C30_wires_safe",
    "C30_continuous_partial",
    "C30_in_order_partial",
    "C30_parameter_refuted",
    "C30_joined"
   ],
   "note": "False of the code: the nearest-point parameter is used although the wire is entered at its start (C30_parameter_refuted). Rapids proved safe for all inputs; continuity proved for the other kernel answers. C30_joined: a wire is entered by a cut exactly if the kernel finds it near enough to where the one before was left."
  },
  {
   "property": "C31",
   "status": "partial",
   "theorems": [
    "C31_covered_partial",
    "C31_empty_wire_drops_all",
    "C31_errors",
    "C31_total",
    "C31_routable",
    "C31_dropped_refuted"
   ],
   "note": "False of the code: an empty wire drops everything (C31_dropped_refuted, C31_empty_wire_drops_all). Proved for lists without an empty wire. C31_errors, C31_total, C31_routable: when there is an error."
  },
  {
   "property": "C32",
   "status": "proved",
   "theorems": [
    "C32_sequences_split"
   ],
   "note": "Objects compared by identity: the hypothesis asks == to tell the nodes' objects apart."
  },
  {
   "property": "C33",
   "status": "proved",
   "theorems": [
    "C33_fill_visits_all",
    "C33_fill_ends",
    "C33_fill_errors"
   ],
   "note": "For every engine; fuel bounds the while loop, running out is an explicit error and cannot happen when the successive offsets are finitely many and smaller in number than the fuel."
  },
  {
   "property": "C34",
   "status": "proved",
   "theorems": [
    "C34_depth_groups",
    "C34_no_face_lost",
    "C34_faces_above_the_plane"
   ],
   "note": "pocket.py; the copy in pocket_cq.py is identical code."
  },
  {
   "property": "C35",
   "status": "partial",
   "theorems": [
    "C35_levels",
    "C35_level_region_partial",
    "C35_parity_partial",
    "C35_overlap_refuted",
    "C35_ring_refuted"
   ],
   "note": "False as stated: overlapping outlines are XORed (even-odd fill rule) and areas enclosed by a ring of outlines are machined; both refuted with engines that are right at every point. Proved: exact structure of the levels for all inputs, the region equation at points covered by at most one outline and one clip, and at all other points the parities that decide (C35_parity_partial)."
  },
  {
   "property": "C36",
   "status": "proved",
   "theorems": [
    "C36_stepdown_passes",
    "C36_stepdown_errors",
    "C36_pocket_passes"
   ],
   "note": "Exact arithmetic; see C37 for doubles."
  },
  {
   "property": "C37",
   "status": "partial",
   "theorems": [
    "C37_float_passes_refuted",
    "C37_exact_passes_partial",
    "C37_float_passes_near",
    "C37_float_floor"
   ],
   "note": "False in double precision, refuted by a concrete stepdown and depth. Proved for exact arithmetic, and for doubles up to rounding: every pass is where it belongs and none is below the floor by more than 2^-45 of the dimensions."
  },
  {
   "property": "C38",
   "status": "proved",
   "theorems": [
    "C38_start_depth"
   ],
   "note": ""
  },
  {
   "property": "C39",
   "status": "proved",
   "theorems": [
    "C39_pocket_never_below_floor",
    "C39_pocket_on_contours"
   ],
   "note": "Holds with exact arithmetic for every stepdown (any sign) and every engine."
  },
  {
   "property": "C40",
   "status": "partial",
   "theorems": [
    "C40_layers_partial",
    "C40_depths_partial",
    "C40_which_layers",
    "C40_spacing",
    "C40_to_the_plane",
    "C40_plane_refuted"
   ],
   "note": "Proved for wires the cut with the job's top plane leaves alone (layers and moves). False in general: the plane is in world coordinates while the layers are local; C40_plane_refuted shows layers missing for a top plane below the origin. C40_which_layers: exactly which layers are made, whatever the plane removes; C40_to_the_plane: all that are needed, or those under the one lying in the plane."
  },
  {
   "property": "C41",
   "status": "proved",
   "theorems": [
    "C41_limit",
    "C41_bounded",
    "C41_which_errors",
    "C41_negative",
    "C41_layers_determined"
   ],
   "note": "Exact condition for the error, termination and bound for every kernel; negative stepdowns raise RuntimeError. C41_which_errors: exactly which errors, whatever the kernel answers."
  },
  {
   "property": "C42",
   "status": "proved",
   "theorems": [
    "C42_edge_tabs",
    "C42_alternate"
   ],
   "note": "Exact arithmetic; length // spacing is the floor of the quotient."
  },
  {
   "property": "C43",
   "status": "partial",
   "theorems": [
    "C43_overlap_refuted",
    "C43_check",
    "C43_overlap_exactly",
    "C43_no_overlap_partial",
    "C43_room_partial"
   ],
   "note": "False as stated (C43_overlap_refuted: spacing 3, width 5/2, length 6). C43_overlap_exactly gives the exact condition; C43_room_partial shows 3*width <= 2*spacing suffices on every edge."
  },
  {
   "property": "C44",
   "status": "partial",
   "theorems": [
    "C44_unordered_refuted",
    "C44_transitions_partial"
   ],
   "note": "False as stated (C44_unordered_refuted: a circle with two tabs). C44_transitions_partial says exactly which edges get ordered transitions, and that those describe the tabs."
  },
  {
   "property": "C45",
   "status": "partial",
   "theorems": [
    "C45_edge_pieces",
    "C45_edge_tabs",
    "C45_wire_tabs_partial",
    "C45_wire_tabs_connected",
    "C45_apply_tabs_partial",
    "C45_above_tabs",
    "C45_corner_refuted",
    "C45_location_refuted",
    "C45_tabs_dropped"
   ],
   "note": "Per edge and for EdgeTabs the property is proved (C45_edge_pieces, C45_edge_tabs); for WireTabs it is proved if no tab ends at a corner and no edge is cut backwards (C45_wire_tabs_partial). It fails for WireTabs that end at a corner (C45_corner_refuted), for edges with a location (C45_location_refuted), and tabs are dropped silently if the pieces cannot be assembled (C45_tabs_dropped). C45_wire_tabs_connected: ending at a corner is the only way the wire falls apart."
  },
  {
   "property": "C46",
   "status": "proved",
   "theorems": [
    "C46_every_hole_once",
    "C46_arguments",
    "C46_job_drill"
   ],
   "note": ""
  },
  {
   "property": "C47",
   "status": "proved",
   "theorems": [
    "C47_nearest_next",
    "C47_order_determined"
   ],
   "note": ""
  },
  {
   "property": "C48",
   "status": "proved",
   "theorems": [
    "C48_vertical_and_safe"
   ],
   "note": ""
  },
  {
   "property": "C49",
   "status": "partial",
   "theorems": [
    "C49_positions_partial",
    "C49_planes_partial",
    "C49_other_planes",
    "C49_xy",
    "C49_shift",
    "C49_misplaced_refuted"
   ],
   "note": "drill places holes with toWorldCoords of the workplane. Proved: in place for all planes that are their own inverse seen from above (C49_planes_partial), elsewhere for every other plane (C49_other_planes); the shift law for moved planes. The full statement is refuted (C49_misplaced_refuted)."
  },
  {
   "property": "C50",
   "status": "proved",
   "theorems": [
    "C50_single_boundary",
    "C50_routing"
   ],
   "note": ""
  },
  {
   "property": "C51",
   "status": "partial",
   "theorems": [
    "C51_covers_partial",
    "C51_value_error_partial",
    "C51_two_boundaries_refuted",
    "C51_two_sequences_partial",
    "C51_three_boundaries",
    "C51_no_step",
    "C51_no_lines"
   ],
   "note": "Every answer covers each scanline once and the only possible error on well-formed input is ValueError (proved); the full claim is false: the start of a later sequence is not dropped from its polygon and is found again (C51_two_boundaries_refuted). With scanlines within one boundary each, an answer has at most two sequences and three boundaries are always an error (C51_two_sequences_partial, C51_three_boundaries). C51_no_step, C51_no_lines: inputs for which there is no route to start."
  },
  {
   "property": "C52",
   "status": "partial",
   "theorems": [
    "C52_linked_partial",
    "C52_unlinked",
    "C52_closing_edge_refuted"
   ],
   "note": "Linking succeeds exactly when all ends are near a listed segment (proved); false for closed wires, whose corner list lacks the closing segment (C52_closing_edge_refuted)."
  },
  {
   "property": "C53",
   "status": "partial",
   "theorems": [
    "C53_on_segment_partial",
    "C53_kept",
    "C53_errors",
    "C53_refined",
    "C53_closing_refuted",
    "C53_closing_exactly"
   ],
   "note": "Proved for all segments whose end is found behind their start, and for whole outlines with distinct corners (C53_refined); false on the closing segment of an explicitly closed polygon (C53_closing_refuted). C53_closing_exactly: there the points stand in the order opposite to the one they were linked in."
  },
  {
   "property": "C54",
   "status": "partial",
   "theorems": [
    "C54_walk",
    "C54_direction_partial",
    "C54_neighbours_partial",
    "C54_last_and_missing",
    "C54_shorter_refuted"
   ],
   "note": "The walk, the consumption and the criterion actually used (sum of squared distances from the entry) are proved, and that the nearer of two free neighbours is taken; the shorter-way claim is false (C54_shorter_refuted)."
  },
  {
   "property": "C55",
   "status": "partial",
   "theorems": [
    "C55_sorted_partial",
    "C55_open_partial",
    "C55_open_refuted",
    "C55_previous_refuted",
    "C55_nothing_to_sort"
   ],
   "note": "Counts, points and closed shapes are kept (proved). An open path is cut in two and the parts exchanged, exactly unless its first point is a nearest one (C55_open_partial), which breaks it (C55_open_refuted). Every path is started near the end of the first path, not of the previous one (C55_previous_refuted)."
  },
  {
   "property": "C56",
   "status": "proved",
   "theorems": [
    "C56_never_below_surface",
    "C56_passes"
   ],
   "note": "For the scanned points (the ends of the cuts); between them see C74."
  },
  {
   "property": "C57",
   "status": "proved",
   "theorems": [
    "C57_chop",
    "C57_chop_determined",
    "C57_points_kept"
   ],
   "note": ""
  },
  {
   "property": "C58",
   "status": "partial",
   "theorems": [
    "C58_float_depths",
    "C58_negative_stepdown_partial",
    "C58_stepdown_fails",
    "C58_positive_stepdown_refuted"
   ],
   "note": "False as stated: a positive stepdown gives an IndexError for every part below its top (C58_stepdown_fails, C58_positive_stepdown_refuted). Proved for negative stepdowns. C58_float_depths is the double precision version for negative stepdowns."
  },
  {
   "property": "C59",
   "status": "partial",
   "theorems": [
    "C59_feed_in_force_partial",
    "C59_profile_fed",
    "C59_wire_profile_fed",
    "C59_drill_fed",
    "C59_pocket_fed",
    "C59_surface_unfed",
    "C59_no_feed_in_force",
    "C59_feed_in_force_refuted"
   ],
   "note": "False with surface operations, whose cuts have no feed (C59_feed_in_force_refuted). Proved for all programs of profiles, wire profiles, pockets and drills."
  },
  {
   "property": "C60",
   "status": "proved",
   "theorems": [
    "C60_evenly_sampled",
    "C60_spacing"
   ],
   "note": "Samples are evenly spaced in arc length from end to end; the spacing is below 3*10^-precision, and within 10^-precision only for curves no longer than that."
  },
  {
   "property": "C61",
   "status": "proved",
   "theorems": [
    "C61_edge_samples",
    "C61_closed_outline",
    "C61_outline_closed",
    "C61_open_outline",
    "C61_errors",
    "C61_path"
   ],
   "note": "Closed and open outlines of connected wires are the edge samples one after the other; only failure is an unknown base curve."
  },
  {
   "property": "C62",
   "status": "proved",
   "theorems": [
    "C62_inner_first"
   ],
   "note": "Groups of moves per wire, inner wires first, None offsets skipped."
  },
  {
   "property": "C63",
   "status": "partial",
   "theorems": [
    "C63_straight_moves_drawn_partial",
    "C63_all_moves_drawn_partial",
    "C63_every_move_drawn_refuted"
   ],
   "note": "False for arcs with a kernel that takes vectors only (C63_every_move_drawn_refuted). Proved: exactly the straight displaced moves are drawn, and arcs too with a kernel that takes addresses."
  },
  {
   "property": "C64",
   "status": "proved",
   "theorems": [
    "C64_float_steps",
    "C64_interpolation",
    "C64_empty_sequence",
    "C64_repeated_point"
   ],
   "note": "For sequences without repeated points; a repeated point is an error (C64_repeated_point)."
  },
  {
   "property": "C65",
   "status": "partial",
   "theorems": [
    "C65_codes_partial",
    "C65_g50_always",
    "C65_listed_codes_refuted"
   ],
   "note": "False of the code: every program contains G50 (C65_g50_always). C65_codes_partial: all other G codes are listed, and all M codes are in a modal group."
  },
  {
   "property": "C66",
   "status": "partial",
   "theorems": [
    "C66_codes_partial",
    "C66_probe_refuted"
   ],
   "note": "False for ProbeMode.ON_CONTACT_ERROR only; proved for all other members."
  },
  {
   "property": "C67",
   "status": "partial",
   "theorems": [
    "C67_offset_wire",
    "C67_errors",
    "C67_wrong_location_refuted",
    "C67_not_applied_refuted"
   ],
   "note": "offset_wire is characterised exactly; the location used is that of the last offset wire, not of the wire that was offset (two refutations)."
  },
  {
   "property": "C68",
   "status": "proved",
   "theorems": [
    "C68_safe_moves"
   ],
   "note": "Every move of a profile, for every kernel."
  },
  {
   "property": "C71",
   "status": "partial",
   "theorems": [
    "C71_every_point_cut_refuted",
    "C71_cuts_exactly"
   ],
   "note": "False: refuted by the first point of a run (C71_every_point_cut_refuted). C73 says which points are cut. C71_cuts_exactly: where cuts end, in each pass."
  },
  {
   "property": "C72",
   "status": "partial",
   "theorems": [
    "C72_rapids_above_surface_partial",
    "C72_rapids_above_surface_refuted",
    "C72_descents_exactly"
   ],
   "note": "Proved when all pass depths are at or below the operation's safe height; refuted with a top height above it. C72_descents_exactly: rapids come down above the points where the runs begin."
  },
  {
   "property": "C73",
   "status": "proved",
   "theorems": [
    "C73_finished_surface"
   ],
   "note": ""
  },
  {
   "property": "C74",
   "status": "partial",
   "theorems": [
    "C74_depth_partial",
    "C74_above_between_points_refuted"
   ],
   "note": "False: refuted by a step between two scanned points (C74_above_between_points_refuted). C74_depth_partial bounds how far the tool can be below a surface of bounded slope; the bound is attained (C74_example)."
  },
  {
   "property": "C69",
   "status": "partial",
   "theorems": [
    "C69_home_from_end_of_cut",
    "C69_drill_ends_in_hole",
    "C69_profile_ends_in_cut",
    "C69_wire_profile_ends_in_cut",
    "C69_pocket_ends_in_cut",
    "C69_cq_pocket_ends_in_cut",
    "C69_clear_before_home_refuted"
   ],
   "note": "False: the last home move starts where the last cut ended (C69_home_from_end_of_cut), e.g. in a drilled hole (C69_clear_before_home_refuted). C69_profile_ends_in_cut, C69_wire_profile_ends_in_cut, C69_pocket_ends_in_cut, C69_cq_pocket_ends_in_cut: profiles and pockets always end in a cut, never with a retraction."
  },
  {
   "property": "C75",
   "status": "proved",
   "theorems": [
    "C75_program_makes_the_moves"
   ],
   "note": ""
  },
  {
   "property": "C76",
   "status": "proved",
   "theorems": [
    "C76_profile_starts_straight",
    "C76_wire_profile_starts_straight",
    "C76_pocket_starts_straight",
    "C76_surface_starts_straight",
    "C76_drill_starts_straight"
   ],
   "note": ""
  },
  {
   "property": "C77",
   "status": "partial",
   "theorems": [
    "C77_colours",
    "C77_colours_differ_refuted"
   ],
   "note": "False: moves with an odd index are dark red whatever they are (C77_colours, C77_colours_differ_refuted)."
  },
  {
   "property": "C78",
   "status": "proved",
   "theorems": [
    "C78_show_names",
    "C78_show_edges",
    "C78_show_groups",
    "C78_nothing_to_show_with"
   ],
   "note": ""
  },
  {
   "property": "C79",
   "status": "proved",
   "theorems": [
    "C79_no_tool",
    "C79_unknown_engine",
    "C79_level_areas",
    "C79_clipper_arguments",
    "C79_cq_arguments"
   ],
   "note": ""
  },
  {
   "property": "C80",
   "status": "proved",
   "theorems": [
    "C80_floor"
   ],
   "note": ""
  },
  {
   "property": "C81",
   "status": "proved",
   "theorems": [
    "C81_cq_pocket",
    "C81_fill_ends"
   ],
   "note": ""
  },
  {
   "property": "C82",
   "status": "partial",
   "theorems": [
    "C82_level_heights_partial",
    "C82_actual_height",
    "C82_exactly",
    "C82_tilted_plane_refuted"
   ],
   "note": "False for planes whose normal is not the global Z axis: faces are moved along the global normal in local coordinates (C82_tilted_plane_refuted). Proved for upright planes. C82_exactly: a face gets to its level exactly for those planes, or if it was there already."
  },
  {
   "property": "C83",
   "status": "partial",
   "theorems": [
    "C83_stepdown_ignored",
    "C83_passes_refuted"
   ],
   "note": "False with the cq engine, which ignores the stepdown (C83_stepdown_ignored, C83_passes_refuted). The default engine is the subject of C36."
  },
  {
   "property": "C84",
   "status": "partial",
   "theorems": [
    "C84_reach_partial",
    "C84_outline_refuted"
   ],
   "note": "False as soon as there is an area to avoid: the default outline offset becomes zero (C84_outline_refuted, C79_clipper_arguments). C84_reach_partial: with polygons offset correctly no cut gets nearer to the end of the areas, in any direction, than the outline offset, which is the radius without areas to avoid."
  },
  {
   "property": "C70",
   "status": "partial",
   "theorems": [
    "C70_flatten_partial",
    "C70_types",
    "C70_other_types",
    "C70_short_curves",
    "C70_reversed_curves",
    "C70_reversed_refuted",
    "C70_spacing_refuted",
    "C70_ends_refuted",
    "C70_polygon",
    "C70_open_refuted"
   ],
   "note": "False for reversed curves (C70_reversed_refuted), curves no longer than 0.1 (C70_short_curves, C70_ends_refuted), and the spacing reaches 0.2 (C70_spacing_refuted). An open wire loses its start (C70_open_refuted). Proved for lines of either orientation and forward curves longer than 0.1."
  },
  {
   "property": "C85",
   "status": "proved",
   "theorems": [
    "C85_paths",
    "C85_reset",
    "C85_reset_works",
    "C85_open_polygon",
    "C85_open_wire"
   ],
   "note": ""
  },
  {
   "property": "C86",
   "status": "proved",
   "theorems": [
    "C86_execute",
    "C86_loops_closed",
    "C86_scaling"
   ],
   "note": ""
  },
  {
   "property": "C87",
   "status": "proved",
   "theorems": [
    "C87_max_bounds",
    "C87_not_too_large"
   ],
   "note": "For engines whose bounds contain the paths, and a length function that is not too short."
  },
  {
   "property": "C88",
   "status": "partial",
   "theorems": [
    "C88_contours",
    "C88_ends",
    "C88_too_small",
    "C88_endless",
    "C88_outline_refuted"
   ],
   "note": "What the engine is given, termination and the result are proved. False: the outline itself is never cut (C88_outline_refuted); a small region is an IndexError (C88_too_small); stepover 0 never ends (C88_endless)."
  },
  {
   "property": "C89",
   "status": "proved",
   "theorems": [
    "C89_refines",
    "C89_scanlines"
   ],
   "note": "For engines whose bounds contain the paths; cut once when all scanlines have two points."
  },
  {
   "property": "C90",
   "status": "partial",
   "theorems": [
    "C90_holes_partial",
    "C90_none_twice",
    "C90_inside",
    "C90_island_refuted"
   ],
   "note": "Proved for holes inside one of the outlines; a hole inside none is dropped (C90_island_refuted)."
  },
  {
   "property": "C91",
   "status": "partial",
   "theorems": [
    "C91_triangles",
    "C91_in_place_partial",
    "C91_face",
    "C91_solids",
    "C91_location_refuted",
    "C91_in_place_exactly"
   ],
   "note": "Proved in the coordinates of the triangulation, and in place for faces without a location; false otherwise (C91_location_refuted). C91_in_place_exactly: in place if and only if the locations leave the corners where they are."
  },
  {
   "property": "C92",
   "status": "proved",
   "theorems": [
    "C92_projection",
    "C92_nothing"
   ],
   "note": ""
  },
  {
   "property": "C93",
   "status": "proved",
   "theorems": [
    "C93_direction"
   ],
   "note": ""
  },
  {
   "property": "C94",
   "status": "proved",
   "theorems": [
    "C94_nearest_on_segment",
    "C94_nearest_on_path",
    "C94_squares"
   ],
   "note": "x ** 2 is assumed within one unit in the last place (good_square); proved for the rounded product."
  },
  {
   "property": "C95",
   "status": "proved",
   "theorems": [
    "C95_near_point_found",
    "C95_far_point_rejected"
   ],
   "note": "Same assumption on x ** 2 as C94."
  },
  {
   "property": "C96",
   "status": "proved",
   "theorems": [
    "C96_scanlines"
   ],
   "note": ""
  },
  {
   "property": "C97",
   "status": "proved",
   "theorems": [
    "C97_sample_count"
   ],
   "note": ""
  },
  {
   "property": "C98",
   "status": "proved",
   "theorems": [
    "C98_tab_ranges",
    "C98_tabs_apart",
    "C98_wire_tabs"
   ],
   "note": "The number of tabs, int(length // spacing), is an argument; it is the exact floor of C42."
  },
  {
   "property": "C99",
   "status": "proved",
   "theorems": [
    "C99_edge_tabs",
    "C99_single_pass",
    "C99_any_tabs"
   ],
   "note": "EdgeTabs in full; for any tabs C99_any_tabs with the transitions of C44."
  },
  {
   "property": "C100",
   "status": "proved",
   "theorems": [
    "C100_coordinate_text",
    "C100_accurate",
    "C100_decimals_differ"
   ],
   "note": "repr is specified as any shortest decimal that reads back; competing decimals of 2^971 and more are not considered."
  },
  {
   "property": "C101",
   "status": "proved",
   "theorems": [
    "C101_offset_asked",
    "C101_union_asked",
    "C101_difference_asked",
    "C101_contours_on_grid",
    "C101_no_drift",
    "C101_snapped_input",
    "C101_doubles_in",
    "C101_doubles_out"
   ],
   "note": "64-bit overflow (coordinates beyond 2^31) is outside the model."
  },
  {
   "property": "C102",
   "status": "partial",
   "theorems": [
    "C102_tolerance_partial",
    "C102_tolerance_refuted",
    "C102_offset_partial",
    "C102_endless_stepovers",
    "C102_endless_refuted"
   ],
   "note": "False as stated: the tolerance is 0 from precision 10 on, and a stepover below 2^-31 becomes 0 and the filling never ends. Proved: exactly which precisions and stepovers stay positive."
  },
  {
   "property": "C103",
   "status": "proved",
   "theorems": [
    "C103_profile_placed",
    "C103_wire_profile_placed",
    "C103_pocket_placed",
    "C103_drill_placed",
    "C103_surface_placed",
    "C103_to_gcode_total",
    "C103_reachable",
    "C103_printable",
    "C103_moves_from_known"
   ],
   "note": "Numbers in the plain range and names without parentheses are needed only where the text is read back."
  },
  {
   "property": "C104",
   "status": "partial",
   "theorems": [
    "C104_area",
    "C104_rejected",
    "C104_no_inner",
    "C104_no_inner_refuted"
   ],
   "note": "C104_area, C104_rejected: what is scanned and what is rejected. None as the offset of the holes, which the annotation allows, is a TypeError: C104_no_inner_refuted (and nothing is ever cut with it, C104_no_inner)."
  },
  {
   "property": "C105",
   "status": "proved",
   "theorems": [
    "C105_clear_rapids",
    "C105_sideways",
    "C105_above_surface"
   ],
   "note": "Programs of jobs made by the methods of Job, with numbers and names that print plainly. The machine model keeps the position unknown after home moves."
  },
  {
   "property": "C106",
   "status": "proved",
   "theorems": [
    "C106_axes",
    "C106_in_every_picture"
   ],
   "note": "For kernels that make an edge between any two points they do not take for the same. That the group of moves is placed by the plane is not modelled."
  },
  {
   "property": "C107",
   "status": "proved",
   "theorems": [
    "C107_round_trip",
    "C107_too_short"
   ],
   "note": "For kernels whose makeLine joins different points and whose assembleEdges keeps connected edges in order. path_to_wire is not called by the project."
  },
  {
   "property": "C108",
   "status": "proved",
   "theorems": [
    "C108_tiles",
    "C108_fails",
    "C108_share_of_edge",
    "C108_any_length_refuted"
   ],
   "note": "For wires measured as the sum of their edges; with a shorter length the ranges are not ordered (C108_any_length_refuted). wire_edge_d_ranges is not called by the project."
  },
  {
   "property": "C109",
   "status": "partial",
   "theorems": [
    "C109_faces_kept",
    "C109_combine",
    "C109_order",
    "C109_lists_of_faces_refuted",
    "C109_base_to_gcode"
   ],
   "note": "C109_faces_kept: which faces, in order. The result is not a list of lists as annotated: C109_lists_of_faces_refuted. Not called by the project."
  },
  {
   "property": "C110",
   "status": "partial",
   "theorems": [
    "C110_feeds_partial",
    "C110_heights",
    "C110_plunge_feed_refuted",
    "C110_several_calls_refuted"
   ],
   "note": "C110_feeds_partial, C110_heights: for calls each made on the job the one before answered. False in two ways: drilling plunges at the feed rate (C110_plunge_feed_refuted), and a tool given to one call changes the feed rate of other calls on the same job (C110_several_calls_refuted). Cuts of surface operations have no feed rate (C59)."
  },
  {
   "property": "C111",
   "status": "proved",
   "theorems": [
    "C111_holes"
   ],
   "note": "C111_holes. Places are those of C49, displaced when the job plane is not the world plane."
  },
  {
   "property": "C112",
   "status": "proved",
   "theorems": [
    "C112_floor"
   ],
   "note": "C112_floor, with rounding to three digits shown monotone."
  },
  {
   "property": "C113",
   "status": "partial",
   "theorems": [
    "C113_profile_passes_partial",
    "C113_wire_profile_passes_partial",
    "C113_passes_refuted"
   ],
   "note": "C113_profile_passes_partial, C113_wire_profile_passes_partial: flat offset wires clear of the plane the code cuts with if there is a stepdown (otherwise false, C113_passes_refuted), without tabs (C121 for these)."
  },
  {
   "property": "C114",
   "status": "proved",
   "theorems": [
    "C114_comments"
   ],
   "note": "C114_comments."
  },
  {
   "property": "C115",
   "status": "partial",
   "theorems": [
    "C115_lines_partial",
    "C115_ends_partial",
    "C115_all_vertical",
    "C115_circle_refuted"
   ],
   "note": "C115_lines_partial: straight edges. False of closed edges, C115_circle_refuted. The project does not call vertical_edge. C115_ends_partial, C115_all_vertical: of all edges it tells whether the moves end above or below where they start."
  },
  {
   "property": "C116",
   "status": "partial",
   "theorems": [
    "C116_profile_partial",
    "C116_wire_profile_partial",
    "C116_refuted"
   ],
   "note": "C116_profile_partial, C116_wire_profile_partial: connected paths that start below the safe height, where the kernel never answers with a place inside an edge (otherwise false: C30_parameter_refuted, and on the machine C122_refuted and C122_circle_refuted). C116_refuted: no division of the moves of that program traces the paths."
  },
  {
   "property": "C117",
   "status": "partial",
   "theorems": [
    "C117_pocket_partial",
    "C117_wall_refuted"
   ],
   "note": "C117_pocket_partial: safe heights above the surface, stepdown not negative; after coming down the tool may go on along one chord of the contour, otherwise the statement is that of the property. False without the chord: C117_wall_refuted, a pocket with two arms whose program cuts through the wall between them."
  },
  {
   "property": "C118",
   "status": "proved",
   "theorems": [
    "C118_surface"
   ],
   "note": "C118_surface. The first point of a run is not cut (C71) and cuts have no feed rate of their own (C59)."
  },
  {
   "property": "C119",
   "status": "partial",
   "theorems": [
    "C119_profile_partial",
    "C119_wire_profile_partial",
    "C119_tilted_refuted",
    "C119_words_refuted"
   ],
   "note": "C119_profile_partial, C119_wire_profile_partial: for level circles. False otherwise (C119_tilted_refuted), and the centre words are not those of the plane (C119_words_refuted)."
  },
  {
   "property": "C120",
   "status": "proved",
   "theorems": [
    "C120_moves_kept"
   ],
   "note": "C14 for the spindle speed that later tools change"
  },
  {
   "property": "C121",
   "status": "partial",
   "theorems": [
    "C121_profile_partial",
    "C121_wire_profile_partial",
    "C121_corner_refuted"
   ],
   "note": "C121_profile_partial, C121_wire_profile_partial: flat offset wires with tabs that fit (false otherwise, C43_overlap_refuted, C44_unordered_refuted, C45_corner_refuted), clear of the plane the code cuts with (C40_plane_refuted), where the kernel never answers inside an edge (C30_parameter_refuted). C121_corner_refuted: a tab that ends at a corner is left by a slanted cut along the whole next side."
  },
  {
   "property": "C122",
   "status": "partial",
   "theorems": [
    "C122_profile_partial",
    "C122_wire_profile_partial",
    "C122_kept_partial",
    "C122_refuted",
    "C122_circle_refuted"
   ],
   "note": "False of the code (C122_refuted, C122_circle_refuted). C122_profile_partial, C122_wire_profile_partial: paths that start with a straight edge are traced, then one straight cut may follow, to a point given. C122_kept_partial: it is on the path if the kernel answers inside the first edge."
  },
  {
   "property": "C123",
   "status": "partial",
   "theorems": [
    "C123_linked_partial",
    "C123_zero_refuted"
   ],
   "note": "False of the code for answers with parameter 0 (C123_zero_refuted). C123_linked_partial: otherwise, for answers linked to and not on splines, every wire is cut once, entered from the safe height or by a link as described."
  },
  {
   "property": "C124",
   "status": "partial",
   "theorems": [
    "C124_cq_pocket_partial",
    "C124_refuted"
   ],
   "note": "C124_cq_pocket_partial: for filling wires the kernel answers about as the code expects (closed, below the safe height, answers linked to, in range, not parameter 0, not on splines; otherwise false, C123_zero_refuted, C30_parameter_refuted). C124_refuted: a pocket with an island near its wall, where the last cut goes through the wall."
  },
  {
   "property": "C125",
   "status": "proved",
   "theorems": [
    "C125_profile",
    "C125_wire_profile",
    "C125_pocket",
    "C125_drill",
    "C125_surface"
   ],
   "note": "tools named in the call may differ in number and speed"
  },
  {
   "property": "C126",
   "status": "proved",
   "theorems": [
    "C126_profile",
    "C126_wire_profile",
    "C126_pocket",
    "C126_drill"
   ],
   "note": "surface operations have no feed rates (C59, C125_surface)"
  },
  {
   "property": "C127",
   "status": "proved",
   "theorems": [
    "C127_drill",
    "C127_contours",
    "C127_pocket",
    "C127_wires",
    "C127_profile",
    "C127_wire_profile",
    "C127_zig_zag",
    "C127_surface",
    "C127_face_pocket"
   ],
   "note": "the answers about moved things must be moved exactly: pyclipper truncates to its grid (C101), so there it holds up to the grid"
  },
  {
   "property": "C128",
   "status": "proved",
   "theorems": [
    "C128_drill",
    "C128_ties_refuted",
    "C128_first_refuted"
   ],
   "note": "both conditions are necessary (C128_ties_refuted, C128_first_refuted)"
  },
  {
   "property": "C129",
   "status": "proved",
   "theorems": [
    "C129_wire_profile",
    "C129_profile",
    "C129_machine",
    "C129_both_refuted"
   ],
   "note": "for profiles with one offset, as stated; with both offsets the order differs (C129_both_refuted)"
  },
  {
   "property": "C130",
   "status": "proved",
   "theorems": [
    "C130_drill",
    "C130_contours",
    "C130_pocket"
   ],
   "note": "the engine must answer about turned polygons exactly (pyclipper truncates to its grid, C101); arcs do not occur"
  },
  {
   "property": "C131",
   "status": "proved",
   "theorems": [
    "C131_again"
   ],
   "note": ""
  },
  {
   "property": "C132",
   "status": "partial",
   "theorems": [
    "C132_way_refuted",
    "C132_legs_partial"
   ],
   "note": "false: C132_way_refuted (holes on a line). C132_legs_partial: each leg is no longer than that to any hole drilled later"
  },
  {
   "property": "C133",
   "status": "proved",
   "theorems": [
    "C133_profile",
    "C133_wire_profile",
    "C133_pocket",
    "C133_surface",
    "C133_drill"
   ],
   "note": ""
  },
  {
   "property": "C134",
   "status": "proved",
   "theorems": [
    "C134_profile",
    "C134_wire_profile",
    "C134_pocket",
    "C134_surface",
    "C134_drill"
   ],
   "note": "the heights cuts start at follow from the commands before them (C08, C71)"
  },
  {
   "property": "C135",
   "status": "partial",
   "theorems": [
    "C135_units_refuted",
    "C135_contours_partial",
    "C135_drill_partial"
   ],
   "note": "false: C135_units_refuted (contours linked in inches and not in millimetres). C135_contours_partial: with the stepover multiplied by the square; C135_drill_partial: drilling"
  },
  {
   "property": "C136",
   "status": "proved",
   "theorems": [
    "C136_rounded_order",
    "C136_same_order",
    "C136_same_order_refuted"
   ],
   "note": "C136_same_order_refuted shows that the hypothesis of C136_same_order (holes not at nearly equal distances) is needed"
  },
  {
   "property": "C137",
   "status": "proved",
   "theorems": [
    "C137_rounded_layers"
   ],
   "note": ""
  },
  {
   "property": "C138",
   "status": "proved",
   "theorems": [
    "C138_same_moves",
    "C138_same_answers",
    "C138_operations"
   ],
   "note": ""
  },
  {
   "property": "C139",
   "status": "proved",
   "theorems": [
    "C139_same_moves",
    "C139_same_rates",
    "C139_rates_refuted"
   ],
   "note": "C139_rates_refuted: with surface operations the feed rate is the one left by the program before"
  },
  {
   "property": "C140",
   "status": "proved",
   "theorems": [
    "C140_same_cuts",
    "C140_same_answers",
    "C140_operations",
    "C140_reused_refuted"
   ],
   "note": "C140_reused_refuted shows why each call must be made on the job answered by the last one."
  },
  {
   "property": "C141",
   "status": "proved",
   "theorems": [
    "C141_same_feed_moves",
    "C141_same_answers",
    "C141_operations"
   ],
   "note": "For all the operations and for any generator which depends on the rapid height no more than they do. Both programs must be printable: the height itself can be too large to print plainly."
  },
  {
   "property": "C142",
   "status": "proved",
   "theorems": [
    "C142_moved_programs",
    "C142_moved_exactly",
    "C142_same_answers",
    "C142_operations",
    "C142_exact_refuted"
   ],
   "note": "Kernel and engine are assumed to answer about moved things with moved answers, as in C127. That every displacement is kept exactly is refuted (C142_exact_refuted): ties are rounded to even, so 0.0005 moved by 0.001 prints as 0.002 instead of 0.001."
  },
  {
   "property": "C143",
   "status": "proved",
   "theorems": [
    "C143_wires",
    "C143_profile",
    "C143_wire_profile",
    "C143_clockwise"
   ],
   "note": "wires, profiles with layers and tabs, wire profiles; turned and mirrored work"
  },
  {
   "property": "C144",
   "status": "proved",
   "theorems": [
    "C144_turned_programs",
    "C144_quarter_turns",
    "C144_same_answers",
    "C144_operations",
    "C144_exact_refuted"
   ],
   "note": "Full statement proved; that the bound cannot be dropped for general turns is C144_exact_refuted. Surfacing is not part of the statement: its scan lines do not turn with the work."
  },
  {
   "property": "C145",
   "status": "partial",
   "theorems": [
    "C145_profile_partial",
    "C145_more_passes_partial",
    "C145_pocket",
    "C145_plane_refuted"
   ],
   "note": "C145_profile_partial, C145_more_passes_partial: wires clear of the plane of the job; false otherwise (C145_plane_refuted). C145_pocket: the contours of pockets (engine clipper; the engine cq ignores the stepdown, C83)."
  },
  {
   "property": "C146",
   "status": "partial",
   "theorems": [
    "C146_odd_partial",
    "C146_even_partial",
    "C146_area_refuted",
    "C146_avoid_refuted"
   ],
   "note": "Refuted: an area given twice beside another is left unmachined, an area to avoid given twice is machined (C146_area_refuted, C146_avoid_refuted). Proved: an odd number of times is as good as once, an even number of times counts as not given, at points where the union has no hole."
  },
  {
   "property": "C147",
   "status": "partial",
   "theorems": [
    "C147_levels_partial",
    "C147_program_partial",
    "C147_points_partial",
    "C147_order_refuted"
   ],
   "note": "Proved for engines that do not look at the order (C147_levels_partial, C147_program_partial), and for the machined points whatever the order of the answers, at points where the union has no hole (C147_points_partial). False for the program if the engine answers in the order it is asked (C147_order_refuted). Engine clipper."
  },
  {
   "property": "C148",
   "status": "partial",
   "theorems": [
    "C148_lost_digits",
    "C148_refuted",
    "C148_text_partial",
    "C148_drill_partial",
    "C148_surface_partial",
    "C148_profile_partial"
   ],
   "note": "Refuted: for every precision of 4 digits and more (C148_lost_digits, C148_refuted). Proved of the code: the text of programs does not depend on the precision at all, nor do holes, surfaces and profiles of lines, arcs and circles; it is used for the sampling of curves and by the polygon engine only. Three digits are printed always (C01, C04)."
  },
  {
   "property": "C149",
   "status": "proved",
   "theorems": [
    "C149_above",
    "C149_no_height"
   ],
   "note": "C149_above for every layer and kind of tabs; C149_no_height for whole profiles, errors included."
  },
  {
   "property": "C150",
   "status": "proved",
   "theorems": [
    "C150_pocket",
    "C150_program",
    "C150_plain",
    "C150_avoid_refuted",
    "C150_profile_refuted",
    "C150_profile_multiple"
   ],
   "note": "Areas of one depth, avoid areas at or above the shallower floor; refuted for an avoid area between the floors and for profiles. C150_profile_multiple: profiles whose floors are a multiple of the stepdown apart."
  },
  {
   "property": "C151",
   "status": "proved",
   "theorems": [
    "C151_depth",
    "C151_lines",
    "C151_sign"
   ],
   "note": "C151_depth for commands and errors, C151_lines for the text, C151_sign for Job.drill."
  },
  {
   "property": "C152",
   "status": "proved",
   "theorems": [
    "C152_pocket",
    "C152_profile"
   ],
   "note": "C152_pocket for the contours routed, C152_profile for the tool paths."
  }
 ]
}