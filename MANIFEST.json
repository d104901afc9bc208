{
 "claims": [
  {
   "property": "C01",
   "status": "proved",
   "theorems": [
    "C01_explicit_pages_selected"
   ],
   "note": "Proved for the conditions in the theorems."
  },
  {
   "property": "C02",
   "status": "proved",
   "theorems": [
    "C02_range_selected",
    "C02_end_zero_is_omitted",
    "C02_end_zero_refuted"
   ],
   "note": "Proved for the conditions in the theorems. Deviations of the code from the plain reading, proved by witness: end=0 behaves as if omitted. (C02_end_zero_refuted)"
  },
  {
   "property": "C03",
   "status": "proved",
   "theorems": [
    "C03_one_based_explicit",
    "C03_one_based_range",
    "C03_end_one_is_omitted",
    "C03_end_one_refuted"
   ],
   "note": "Proved for the conditions in the theorems. Deviations of the code from the plain reading, proved by witness: with 1-based numbers end=1 behaves as if omitted. (C03_end_one_refuted)"
  },
  {
   "property": "C04",
   "status": "proved",
   "theorems": [
    "C04_isolated",
    "C04_drop_other",
    "C04_unselected",
    "C04_write_isolated"
   ],
   "note": "Proved for the conditions in the theorems."
  },
  {
   "property": "C05",
   "status": "proved",
   "theorems": [
    "C05_fresh_convert",
    "C05_empty_selection_refuted"
   ],
   "note": "Proved for the conditions in the theorems. Deviations of the code from the plain reading, proved by witness: an empty selection (all page numbers out of range) converts all pages. (C05_empty_selection_refuted)"
  },
  {
   "property": "C06",
   "status": "proved",
   "theorems": [
    "C06_history_finished",
    "C06_document_of_state",
    "C06_tables_of_state",
    "C06_read_only",
    "C06_monotone",
    "C06_stale_pages_refuted"
   ],
   "note": "Proved for the conditions in the theorems. Deviations of the code from the plain reading, proved by witness: a second convert of the same Converter also writes the pages of the first. (C06_stale_pages_refuted)"
  },
  {
   "property": "C07",
   "status": "proved",
   "theorems": [
    "C07_default_name",
    "C07_pieces_exist",
    "C07_source_safe",
    "C07_only_output_written",
    "C07_given_name",
    "C07_source_deleted_refuted",
    "C07_directory_rewritten_refuted"
   ],
   "note": "Proved for the conditions in the theorems. Deviations of the code from the plain reading, proved by witness: if the name of the pdf does not contain '.pdf', the default output is the pdf itself, which is deleted. (C07_source_deleted_refuted) '.pdf' in a directory name is rewritten too. (C07_directory_rewritten_refuted)"
  },
  {
   "property": "C08",
   "status": "proved",
   "theorems": [
    "C08_crash_states",
    "C08_nothing_parsed_untouched",
    "C08_crash_loses_both_refuted"
   ],
   "note": "Proved for the conditions in the theorems. Deviations of the code from the plain reading, proved by witness: a crash between removal and saving leaves neither the old nor the new file. (C08_crash_loses_both_refuted)"
  },
  {
   "property": "C09",
   "status": "proved",
   "theorems": [
    "C09_segments_cover"
   ],
   "note": "Proved for the conditions in the theorems."
  },
  {
   "property": "C10",
   "status": "proved",
   "theorems": [
    "C10_mp_pages_exact",
    "C10_mp_agrees_with_sequential",
    "C10_segment_empty_iff",
    "C10_holes_refuted",
    "C10_empty_segment_refuted",
    "C10_empty_selection_raises",
    "C10_floating_images_lost_refuted"
   ],
   "note": "Proved for the conditions in the theorems. Deviations of the code from the plain reading, proved by witness: multi-processing also converts the pages between the selected ones. (C10_holes_refuted) with more workers than pages an empty segment makes a worker parse all pages. (C10_empty_segment_refuted) a page that went through store and restore - as every page does under multi-processing - has no floating images any more, so none gets into the document, although the page itself would have put all of them there. (C10_floating_images_lost_refuted)"
  },
  {
   "property": "C11",
   "status": "proved",
   "theorems": [
    "C11_schedule_independent",
    "C11_tmp_names_distinct",
    "C11_two_jobs_refuted"
   ],
   "note": "Proved for the conditions in the theorems. Deviations of the code from the plain reading, proved by witness: two jobs in one directory share their temporary files, so one gets the pages of the other. (C11_two_jobs_refuted)"
  },
  {
   "property": "C12",
   "status": "proved",
   "theorems": [
    "C12_index",
    "C12_index_error_iff",
    "C12_slice_open_stop",
    "C12_slice_nonnegative",
    "C12_py_slice_step1",
    "C12_slice_negative_refuted"
   ],
   "note": "Proved for the conditions in the theorems. Deviations of the code from the plain reading, proved by witness: slices with negative bounds or steps differ from Python's. (C12_slice_negative_refuted)"
  },
  {
   "property": "C13",
   "status": "proved",
   "theorems": [
    "C13_store_restore",
    "C13_restore_no_error",
    "C13_store_again",
    "C13_ids_reachable",
    "C13_page_round_trip",
    "C13_settled_identity",
    "C13_second_round",
    "C13_json",
    "C13_tables_kept",
    "C13_restore_keeps_old_floats",
    "C13_stream_table_refuted",
    "C13_rotated_page_refuted",
    "C13_thin_fill_refuted"
   ],
   "note": "Proved for the conditions in the theorems. Deviations of the code from the plain reading, proved by witness: a stream table comes back as a lattice table, so [extract_tables] with its default settings returns a table that it did not return before. (C13_stream_table_refuted) the boxes of a page with a rotation are rotated once more on restore (the stored boxes are already rotated). (C13_rotated_page_refuted) a stroke that was detected as a thin filled box keeps its centre line but not its box: the box is recomputed from the line. (C13_thin_fill_refuted)"
  },
  {
   "property": "C14",
   "status": "proved",
   "theorems": [
    "C14_search_total_and_covering",
    "C14_connected_components",
    "C14_directed_groups_disjoint_refuted"
   ],
   "note": "Proved for the conditions in the theorems. Deviations of the code from the plain reading, proved by witness: on a graph that is not symmetric the groups may overlap. (C14_directed_groups_disjoint_refuted)"
  },
  {
   "property": "C15",
   "status": "proved",
   "theorems": [
    "C15_groups_are_chain_classes",
    "C15_groups_conserve_instances"
   ],
   "note": "Proved for the conditions in the theorems."
  },
  {
   "property": "C16",
   "status": "proved",
   "theorems": [
    "C16_report_sound",
    "C16_report_complete",
    "C16_pair_complete",
    "C16_groups_sound",
    "C16_groups_complete",
    "C16_shared_left_edge_refuted"
   ],
   "note": "Proved for the conditions in the theorems. Deviations of the code from the plain reading, proved by witness: two boxes that share their left edge coordinate (normal for table borders) can be missed, and whether they are depends on the order in which the boxes are given. (C16_shared_left_edge_refuted)"
  },
  {
   "property": "C17",
   "status": "proved",
   "theorems": [
    "C17_owner_box",
    "C17_members",
    "C17_append_only",
    "C17_never_shrinks",
    "C17_boxes_are_normal",
    "C17_insert",
    "C17_pop",
    "C17_flat_member_refuted"
   ],
   "note": "Proved for the conditions in the theorems. Deviations of the code from the plain reading, proved by witness: a member with a non-zero but flat box (a ruling line) is kept without being covered. (C17_flat_member_refuted)"
  },
  {
   "property": "C18",
   "status": "proved",
   "theorems": [
    "C18_vertical_alignment",
    "C18_horizontal_alignment",
    "C18_text_direction",
    "C18_symmetric",
    "C18_reflexive",
    "C18_same_row_overlaps",
    "C18_mixed_directions_refuted"
   ],
   "note": "Proved for the conditions in the theorems. Deviations of the code from the plain reading, proved by witness: for mixed directions the answer depends on the order of arguments. (C18_mixed_directions_refuted)"
  },
  {
   "property": "C19",
   "status": "proved",
   "theorems": [
    "C19_split_is_partition",
    "C19_raises_iff_zero_area",
    "C19_split_meaning",
    "C19_contained",
    "C19_default_threshold_refuted"
   ],
   "note": "Proved for the conditions in the theorems. Deviations of the code from the plain reading, proved by witness: with the default threshold 0 the second part is always empty, even for elements which do not touch the region. (C19_default_threshold_refuted)"
  },
  {
   "property": "C20",
   "status": "proved",
   "theorems": [
    "C20_reading_order",
    "C20_line_order",
    "C20_direction"
   ],
   "note": "Proved for the conditions in the theorems."
  },
  {
   "property": "C21",
   "status": "proved",
   "theorems": [
    "C21_components_of_value",
    "C21_bytes_round_trip",
    "C21_value_of_components",
    "C21_out_of_range_high",
    "C21_out_of_range_negative",
    "C21_overflow_refuted"
   ],
   "note": "Proved for the conditions in the theorems. Deviations of the code from the plain reading, proved by witness: a component above 1 carries over into the next channel. (C21_overflow_refuted)"
  },
  {
   "property": "C22",
   "status": "proved",
   "theorems": [
    "C22_gray",
    "C22_cmyk",
    "C22_cmyk_key_is_gray",
    "C22_cmyk_no_key",
    "C22_cmyk_full_key_is_black",
    "C22_range",
    "C22_other_lengths_are_black"
   ],
   "note": "Proved for the conditions in the theorems."
  },
  {
   "property": "C23",
   "status": "proved",
   "theorems": [
    "C23_split",
    "C23_exact",
    "C23_document",
    "C23_document_text",
    "C23_zero_width_refuted",
    "C23_box_shrinks_refuted"
   ],
   "note": "Proved for the conditions in the theorems. Deviations of the code from the plain reading, proved by witness: Refuted: \"exactly the covered characters get the style\" without the layout hypothesis: a zero-width character counts as inside every shape, so a character far from the shape is styled instead of the covered one. (C23_zero_width_refuted) Refuted: \"a span not marked by the shape is left alone\": if the shape reaches into the span without covering half a character, the span keeps its text but loses the covered part (and all to its left) of its box. (C23_box_shrinks_refuted)"
  },
  {
   "property": "C24",
   "status": "proved",
   "theorems": [
    "C24_only_white",
    "C24_left",
    "C24_right",
    "C24_both_sides_refuted"
   ],
   "note": "Proved for the conditions in the theorems. Deviations of the code from the plain reading, proved by witness: Refuted: \"both sides are stripped\": after stripping the left side, the right side keeps its blanks (short-circuit [or]). (C24_both_sides_refuted)"
  },
  {
   "property": "C25",
   "status": "proved",
   "theorems": [
    "C25_sort_keeps",
    "C25_sort_rows",
    "C25_join",
    "C25_nothing_lost",
    "C25_row_joined",
    "C25_chain_drop_refuted",
    "C25_second_row_refuted",
    "C25_vertical_order_refuted"
   ],
   "note": "Proved for the conditions in the theorems. Deviations of the code from the plain reading, proved by witness: Refuted: \"a dropped line overlaps a line that is kept\": C overlaps only B, which was itself dropped. (C25_chain_drop_refuted) Refuted: \"adjacent lines of one row are joined\": in any row but the first one, the first line is released at once and never joined to its right neighbour. (C25_second_row_refuted) Refuted: \"joined lines read in text order\" for vertical text: bottom-to-top text is read from the bottom, but the upper line is put first. (C25_vertical_order_refuted)"
  },
  {
   "property": "C26",
   "status": "proved",
   "theorems": [
    "C26_decided",
    "C26_spaces",
    "C26_rules",
    "C26_tabs",
    "C26_negative_indent_refuted",
    "C26_center_moves_refuted"
   ],
   "note": "Proved for the conditions in the theorems. Deviations of the code from the plain reading, proved by witness: Refuted: \"the indents handed to Word are not negative\": a first-line indent larger than the left space gives a negative left indent. (C26_negative_indent_refuted) Refuted: \"the paragraph stays where it is\": two or more rows sharing their middle are centred in the container wherever the block is. (C26_center_moves_refuted)"
  },
  {
   "property": "C27",
   "status": "proved",
   "theorems": [
    "C27_total",
    "C27_extent",
    "C27_nonnegative",
    "C27_written",
    "C27_single_row_refuted",
    "C27_negative_refuted"
   ],
   "note": "Proved for the conditions in the theorems. Deviations of the code from the plain reading, proved by witness: Refuted for one row: when the first line is lower than the block, the paragraph becomes smaller than the block. (C27_single_row_refuted) Refuted without the height condition: a first line higher than the block. (C27_negative_refuted)"
  },
  {
   "property": "C28",
   "status": "proved",
   "theorems": [
    "C28_grid",
    "C28_lines",
    "C28_total",
    "C28_clear",
    "C28_sides",
    "C28_collision_refuted",
    "C28_drift_refuted",
    "C28_header_refuted",
    "C28_single_column_refuted"
   ],
   "note": "Proved for the conditions in the theorems. Deviations of the code from the plain reading, proved by witness: Averaged coordinates can collide with those of another row: its strokes are lost. (C28_collision_refuted) Rows farther apart than the clearance can be merged through a row between them. (C28_drift_refuted) A header rule above the columns: the strokes of the row where the columns start are replaced by an empty border. (C28_header_refuted) Two rows of borders crossed by a single column line: IndexError. (C28_single_column_refuted)"
  },
  {
   "property": "C29",
   "status": "proved",
   "theorems": [
    "C29_counts",
    "C29_sound",
    "C29_row_sum",
    "C29_col_sum",
    "C29_unordered_refuted"
   ],
   "note": "Proved for the conditions in the theorems. Deviations of the code from the plain reading, proved by witness: Strokes of an inner column not listed from top to bottom: a drawn border is missed and two separate cells are merged. (C29_unordered_refuted)"
  },
  {
   "property": "C30",
   "status": "proved",
   "theorems": [
    "C30_partition",
    "C30_overlap_refuted",
    "C30_lost_refuted"
   ],
   "note": "Proved for the conditions in the theorems. Deviations of the code from the plain reading, proved by witness: Borders that do not bound rectangles: two cells take the same position... (C30_overlap_refuted) ... or a position belongs to no cell, so its text is dropped. (C30_lost_refuted)"
  },
  {
   "property": "C31",
   "status": "proved",
   "theorems": [
    "C31_fixed_once",
    "C31_positions_in_range",
    "C31_strokes_have_priority",
    "C31_provenance",
    "C31_shading_sides",
    "C31_visible_borders",
    "C31_marked_strokes",
    "C31_layout_completes",
    "C31_every_border_fixed_refuted",
    "C31_foreign_stroke_refuted"
   ],
   "note": "Proved for the conditions in the theorems. Deviations of the code from the plain reading, proved by witness: the layout step can leave a border open although its range is not empty: its candidate positions all meet neighbours which were fixed first. (Its position is then the middle of the range.) (C31_every_border_fixed_refuted) a stroke entirely to the right of the border (here from 500 to 550, the border ending left of 105) still fixes it and gives it its colour: the code skips a stroke only if it starts after the left bound AND ends before the right one. (C31_foreign_stroke_refuted)"
  },
  {
   "property": "C32",
   "status": "proved",
   "theorems": [
    "C32_destinations",
    "C32_exactly_once",
    "C32_contained_block",
    "C32_outside_block",
    "C32_page",
    "C32_overlapping_tables_refuted",
    "C32_degenerate_line_refuted"
   ],
   "note": "Proved for the conditions in the theorems. Deviations of the code from the plain reading, proved by witness: with overlapping tables a line can be placed twice. (C32_overlapping_tables_refuted) a line without extent in a block touching a table stops the conversion of the page (ZeroDivisionError). (C32_degenerate_line_refuted)"
  },
  {
   "property": "C33",
   "status": "proved",
   "theorems": [
    "C33_cell_content",
    "C33_no_loss",
    "C33_crossing_char",
    "C33_twice_means_half",
    "C33_exactly_once",
    "C33_junction_refuted",
    "C33_duplicates_refuted",
    "C33_half_char_refuted",
    "C33_image_refuted",
    "C33_nested_table",
    "C33_cell_shapes"
   ],
   "note": "Proved for the conditions in the theorems. Deviations of the code from the plain reading, proved by witness: a character covering the junction of four cells may be lost. (C33_junction_refuted) a character cut exactly in half appears in both cells; a character at the end of a block lying almost inside one cell appears there and in the next cell. (C33_duplicates_refuted) a character cut exactly in half appears in both cells; a character at the end of a block lying almost inside one cell appears there and in the next cell. (C33_half_char_refuted) an inline image over two neighbouring cells is lost if less than 75% lie in each. (C33_image_refuted)"
  },
  {
   "property": "C34",
   "status": "proved",
   "theorems": [
    "C34_document",
    "C34_cell",
    "C34_dummy_paragraph",
    "C34_one_trailing_paragraph_refuted",
    "C34_trailing_count"
   ],
   "note": "Proved for the conditions in the theorems. Deviations of the code from the plain reading, proved by witness: k tables at the end of a page are followed by k extra paragraphs, not one. (C34_one_trailing_paragraph_refuted)"
  },
  {
   "property": "C35",
   "status": "proved",
   "theorems": [
    "C35_empty_page",
    "C35_margin_range",
    "C35_content_is_inside",
    "C35_working_area",
    "C35_top_factor",
    "C35_bottom_exact_refuted",
    "C35_negative_factor_refuted"
   ],
   "note": "Proved for the conditions in the theorems. Deviations of the code from the plain reading, proved by witness: Refuted: \"the bottom margin never exceeds the free space\". Content ending at 0.1 above a page edge at 791.95 (page sizes are not rounded). (C35_bottom_exact_refuted) Refuted: a factor outside [0,1] is not clipped: a negative one gives a negative margin. (C35_negative_factor_refuted)"
  },
  {
   "property": "C36",
   "status": "proved",
   "theorems": [
    "C36_override",
    "C36_documented_defaults",
    "C36_documented_value",
    "C36_unknown_keys",
    "C36_no_history",
    "C36_history_independent",
    "C36_settings_of_output_refuted"
   ],
   "note": "Proved for the conditions in the theorems. Deviations of the code from the plain reading, proved by witness: Refuted: \"the settings of a call hold for the whole output\". A page parsed by an earlier call keeps the earlier settings although make_docx writes it again. (C36_settings_of_output_refuted)"
  },
  {
   "property": "C37",
   "status": "proved",
   "theorems": [
    "C37_normalised",
    "C37_direction_irrelevant",
    "C37_box",
    "C37_store_restore_stroke",
    "C37_store_restore_fill",
    "C37_fill_to_stroke",
    "C37_centre_line",
    "C37_almost_horizontal_refuted",
    "C37_updated_stroke_refuted"
   ],
   "note": "Proved for the conditions in the theorems. Deviations of the code from the plain reading, proved by witness: Refuted: \"every horizontal stroke starts at its left end\". A line rising by less than 0.001pt counts as horizontal but is turned round, so it runs from right to left and its box has negative width. (C37_almost_horizontal_refuted) Refuted: \"store/restore preserves every stroke\": a stroke whose box was set (merged strokes, converted fills) is restored with another box. (C37_updated_stroke_refuted)"
  },
  {
   "property": "C38",
   "status": "proved",
   "theorems": [
    "C38_groups",
    "C38_strokes_open",
    "C38_strokes_closed",
    "C38_uncoloured",
    "C38_fill_box",
    "C38_iso_single",
    "C38_iso_rectangle",
    "C38_slanted",
    "C38_open_corner_refuted",
    "C38_hairline_refuted",
    "C38_path_box",
    "C38_on_page"
   ],
   "note": "Proved for the conditions in the theorems. Deviations of the code from the plain reading, proved by witness: A slanted line is not; neither are two perpendicular lines drawn as one open path: such borders are lost. (C38_open_corner_refuted) A line of width zero (the thinnest line in PDF) is dropped. (C38_hairline_refuted)"
  },
  {
   "property": "C39",
   "status": "proved",
   "theorems": [
    "C39_clean_up",
    "C39_covered",
    "C39_kept",
    "C39_separate_survive",
    "C39_overlapping_merge",
    "C39_hairline_refuted",
    "C39_fill_absorbed_refuted"
   ],
   "note": "Proved for the conditions in the theorems. Deviations of the code from the plain reading, proved by witness: Refuted: \"no shape disappears except small ones or those outside the page\": a line thinner than the rounding step has a box without area and is dropped. (C39_hairline_refuted) Refuted: \"a filled area stays a filled area\": a border half overlapping a fill of its colour swallows it and becomes a stroke as thick as the cell. (C39_fill_absorbed_refuted)"
  },
  {
   "property": "C40",
   "status": "proved",
   "theorems": [
    "C40_classes",
    "C40_complete",
    "C40_no_hyperlink"
   ],
   "note": "Proved for the conditions in the theorems."
  },
  {
   "property": "C41",
   "status": "proved",
   "theorems": [
    "C41_bytes_round_trip",
    "C41_stored_text",
    "C41_image_round_trip",
    "C41_raw_bytes",
    "C41_wrapped"
   ],
   "note": "Proved for the conditions in the theorems."
  },
  {
   "property": "C42",
   "status": "proved",
   "theorems": [
    "C42_only_links_remembered",
    "C42_reparse_same",
    "C42_reparse_identical",
    "C42_floats_accumulate_refuted",
    "C42_last_settings",
    "C42_links_kept",
    "C42_stale_links_refuted",
    "C42_finalized",
    "C42_stale_page_refuted",
    "C42_repair"
   ],
   "note": "Proved for the conditions in the theorems. Deviations of the code from the plain reading, proved by witness: a page with a floating image has it twice after a second parsing, so a second [convert] of the same Converter puts it twice into the document. (C42_floats_accumulate_refuted) so new settings that change which links there are have no effect on the links: the second parsing is not that of a fresh page. (C42_stale_links_refuted) if the source contents cannot be extracted, a page parsed before stays finalized with its old contents, although this parsing failed. (C42_stale_page_refuted)"
  },
  {
   "property": "C43",
   "status": "proved",
   "theorems": [
    "C43_contains_covered",
    "C43_contains_sound",
    "C43_contains_apart",
    "C43_flat_never_contained"
   ],
   "note": "Proved for the conditions in the theorems."
  },
  {
   "property": "C44",
   "status": "proved",
   "theorems": [
    "C44_main_bbox_covers",
    "C44_main_bbox_iff",
    "C44_no_zero_division"
   ],
   "note": "Proved for the conditions in the theorems."
  },
  {
   "property": "C45",
   "status": "proved",
   "theorems": [
    "C45_color_attribute",
    "C45_highlight",
    "C45_shading",
    "C45_too_large"
   ],
   "note": "Proved for the conditions in the theorems."
  },
  {
   "property": "C46",
   "status": "proved",
   "theorems": [
    "C46_one_section_per_page"
   ],
   "note": "Proved for the conditions in the theorems."
  },
  {
   "property": "C47",
   "status": "proved",
   "theorems": [
    "C47_images_conserved",
    "C47_images_on_their_page",
    "C47_image_only_page_refuted"
   ],
   "note": "Proved for the conditions in the theorems. Deviations of the code from the plain reading, proved by witness: the images of a page that contains nothing but floating images are anchored in the section-break paragraph of the previous page. (C47_image_only_page_refuted)"
  },
  {
   "property": "C48",
   "status": "proved",
   "theorems": [
    "C48_shapes_distributed",
    "C48_first_table",
    "C48_borders_stay"
   ],
   "note": "Proved for the conditions in the theorems."
  },
  {
   "property": "C49",
   "status": "proved",
   "theorems": [
    "C49_kind",
    "C49_hyperlink",
    "C49_no_border_style",
    "C49_determined_once",
    "C49_reused_refuted"
   ],
   "note": "Proved for the conditions in the theorems. Deviations of the code from the plain reading, proved by witness: Refuted: \"a style shape is used for one block only\": a line drawn under the first line of a block also cuts the (tightly set) second line, where it means nothing; the shape becomes undetermined again, is offered to the next block and strikes its text. (C49_reused_refuted)"
  },
  {
   "property": "C50",
   "status": "proved",
   "theorems": [
    "C50_left_shift",
    "C50_sides",
    "C50_indent_refuted",
    "C50_justify_indent_refuted",
    "C50_vertical_indent_refuted"
   ],
   "note": "Proved for the conditions in the theorems. Deviations of the code from the plain reading, proved by witness: Refuted: \"Word shows the paragraph where the PDF does\": a first-line indent moves the whole paragraph to the left. (C50_indent_refuted) Refuted: \"the first-line indent of a justified paragraph is kept\". (C50_justify_indent_refuted) Refuted for vertical text: an indented first line gets a hanging indent. (C50_vertical_indent_refuted)"
  },
  {
   "property": "C51",
   "status": "proved",
   "theorems": [
    "C51_content",
    "C51_breaks",
    "C51_breaks_defined",
    "C51_zero_width_refuted"
   ],
   "note": "Proved for the conditions in the theorems. Deviations of the code from the plain reading, proved by witness: The step fails only for a block of no width. (C51_zero_width_refuted)"
  },
  {
   "property": "C52",
   "status": "proved",
   "theorems": [
    "C52_tabs_land",
    "C52_third_column_refuted",
    "C52_vertical_refuted"
   ],
   "note": "Proved for the conditions in the theorems. Deviations of the code from the plain reading, proved by witness: Refuted for later lines of a row: the third line of a row gets no tab although a stop is at its place. (C52_third_column_refuted) Refuted for vertical text: no line ever gets a tab. (C52_vertical_refuted)"
  },
  {
   "property": "C53",
   "status": "proved",
   "theorems": [
    "C53_font",
    "C53_defined",
    "C53_tiny_refuted",
    "C53_superscript_refuted",
    "C53_scale_integer_refuted"
   ],
   "note": "Proved for the conditions in the theorems. Deviations of the code from the plain reading, proved by witness: Refuted: tiny text stops the conversion of its paragraph with a division by zero. (C53_tiny_refuted) Refuted: \"superscripts stay superscripts\". (C53_superscript_refuted) Refuted: the scale in percent is not always an integer, as Word requires. (C53_scale_integer_refuted)"
  },
  {
   "property": "C54",
   "status": "proved",
   "theorems": [
    "C54_borders",
    "C54_borders_sound",
    "C54_shading"
   ],
   "note": "Proved for the conditions in the theorems."
  },
  {
   "property": "C55",
   "status": "proved",
   "theorems": [
    "C55_when",
    "C55_two_columns",
    "C55_no_columns_refuted",
    "C55_title_refuted"
   ],
   "note": "Proved for the conditions in the theorems. Deviations of the code from the plain reading, proved by witness: Without a column element a table is still built, around the top left corner of the page: here one line across the centre, far from it. (C55_no_columns_refuted) The cells reach 5 pt above the columns: a title line there lies between their top and bottom. (C55_title_refuted)"
  },
  {
   "property": "C56",
   "status": "proved",
   "theorems": [
    "C56_block",
    "C56_dropped_row_refuted",
    "C56_shifted_row_refuted"
   ],
   "note": "Proved for the conditions in the theorems. Deviations of the code from the plain reading, proved by witness: A row whose cells are all merged upward is dropped from the block: the cells above reach beyond the docx table (IndexError)... (C56_dropped_row_refuted) ... or swallow the next row, which writes over the same docx cell. (C56_shifted_row_refuted)"
  },
  {
   "property": "C57",
   "status": "proved",
   "theorems": [
    "C57_split",
    "C57_all_iso",
    "C57_slanted_lost_refuted"
   ],
   "note": "Proved for the conditions in the theorems. Deviations of the code from the plain reading, proved by witness: A slanted line in a group of mostly axis-parallel lines is neither kept as a shape nor drawn as a graphic: here one among five rectangles. (C57_slanted_lost_refuted)"
  },
  {
   "property": "C58",
   "status": "proved",
   "theorems": [
    "C58_gap_has_border",
    "C58_outer_borders",
    "C58_strokes_meet_borders",
    "C58_terminates",
    "C58_duplicate_dummies_refuted",
    "C58_limits",
    "C58_limits_exact",
    "C58_nearest_block_refuted",
    "C58_area",
    "C58_table_strokes"
   ],
   "note": "Proved for the conditions in the theorems. Deviations of the code from the plain reading, proved by witness: [_add_full_dummy_borders] is meant to add a reference border only where there is none; it duplicates existing ones (the look-up key never matches). (C58_duplicate_dummies_refuted) the upper limit is the last block above in reading order, not the nearest one: here a block reaches down to 90, the table starts at 100, and the limit is 20, so the table may cover the block. (C58_nearest_block_refuted)"
  },
  {
   "property": "C59",
   "status": "proved",
   "theorems": [
    "C59_charset",
    "C59_plain_name",
    "C59_localised_name",
    "C59_key_insensitive",
    "C59_key_letters",
    "C59_key_separators",
    "C59_idempotent",
    "C59_idempotent_later",
    "C59_unnamed",
    "C59_comma_refuted",
    "C59_hyphenated_family_refuted"
   ],
   "note": "Proved for the conditions in the theorems. Deviations of the code from the plain reading, proved by witness: with a comma the name can change when parsed again. (C59_comma_refuted) the entry for DFKai-SB (constants.py:43) is never used for that font name, because the part after the hyphen is cut off first. (C59_hyphenated_family_refuted)"
  },
  {
   "property": "C60",
   "status": "proved",
   "theorems": [
    "C60_accounted",
    "C60_conserved",
    "C60_floating",
    "C60_overlapping_floats",
    "C60_stacked",
    "C60_overlap_lost_refuted",
    "C60_shared_left_edge_refuted"
   ],
   "note": "Proved for the conditions in the theorems. Deviations of the code from the plain reading, proved by witness: of two overlapping lines one is dropped with its text. (C60_overlap_lost_refuted) whether an image behind a text floats depends on unrelated contents if their left edges coincide: here it does not, and the text on it is lost. (C60_shared_left_edge_refuted)"
  },
  {
   "property": "C61",
   "status": "proved",
   "theorems": [
    "C61_images_matched",
    "C61_every_place_shown",
    "C61_right_bytes",
    "C61_covered_picture_refuted",
    "C61_deleted_not_restored",
    "C61_extracted",
    "C61_links",
    "C61_links_iff",
    "C61_graphics"
   ],
   "note": "Proved for the conditions in the theorems. Deviations of the code from the plain reading, proved by witness: of two different pictures at one place (a picture covered by another) the lower one gets the bytes of the upper one, and the upper one is deleted: the bytes of the lower one are nowhere in the result. (C61_covered_picture_refuted)"
  },
  {
   "property": "C62",
   "status": "proved",
   "theorems": [
    "C62_only_insertions",
    "C62_text_invisible",
    "C62_other_streams",
    "C62_page_streams",
    "C62_own_mode_refuted",
    "C62_literal_text_refuted",
    "C62_not_idempotent_refuted",
    "C62_shared_stream_refuted"
   ],
   "note": "Proved for the conditions in the theorems. Deviations of the code from the plain reading, proved by witness: s. A page that sets the mode itself stays visible in the picture. (C62_own_mode_refuted) The text itself changes when it contains these letters: after a conversion with pictures the same Converter reads \"BT 3 TrW\" where the pdf says \"BTW\". (C62_literal_text_refuted) Rendering again rewrites again: the stream grows with every picture. (C62_not_idempotent_refuted) A stream that two pages share is rewritten for both when one of them is parsed. (C62_shared_stream_refuted)"
  },
  {
   "property": "C63",
   "status": "proved",
   "theorems": [
    "C63_positions",
    "C63_text_only",
    "C63_laid_out",
    "C63_spaces_nonneg",
    "C63_defined",
    "C63_written_drift",
    "C63_paragraph_numbers",
    "C63_last_table",
    "C63_thin_row_refuted",
    "C63_table_moved_refuted"
   ],
   "note": "Proved for the conditions in the theorems. Deviations of the code from the plain reading, proved by witness: Refuted: \"row heights stay positive\": a closing row thinner than 1pt (a ruled line drawn as a row) gets a negative height, which python-docx refuses (ValueError). (C63_thin_row_refuted) Refuted: \"a table is set where it was\": overlapping the line before it, or close to a table before it, it is set lower, and a table that reaches below its container higher. (C63_table_moved_refuted)"
  },
  {
   "property": "C64",
   "status": "proved",
   "theorems": [
    "C64_single_lines_flow",
    "C64_flow_one_source",
    "C64_two_lines",
    "C64_conserved",
    "C64_one_source",
    "C64_together",
    "C64_rows_kept",
    "C64_across_table_refuted"
   ],
   "note": "Proved for the conditions in the theorems. Deviations of the code from the plain reading, proved by witness: lines of one block of the pdf above and below a table are brought together into one block, although the table is between them. (C64_across_table_refuted)"
  },
  {
   "property": "C65",
   "status": "proved",
   "theorems": [
    "C65_runs",
    "C65_no_shading",
    "C65_plain_text",
    "C65_only_page_lines",
    "C65_once_refuted",
    "C65_shaded_overlooked_refuted"
   ],
   "note": "Proved for the conditions in the theorems. Deviations of the code from the plain reading, proved by witness: a shaded block level with the block before it is taken twice, so its lines occur twice in the candidate. (C65_once_refuted) a block within a coloured rectangle is overlooked when another coloured rectangle comes earlier in the list (only one rectangle is skipped per block). (C65_shaded_overlooked_refuted)"
  },
  {
   "property": "C66",
   "status": "proved",
   "theorems": [
    "C66_nothing_invented",
    "C66_shapes_kept",
    "C66_cell_shapes",
    "C66_plain_page",
    "C66_reading_order",
    "C66_outermost_kept",
    "C66_outermost_chain",
    "C66_outermost_covers",
    "C66_outermost_covers_refuted",
    "C66_once_refuted",
    "C66_line_order_refuted",
    "C66_black_refuted",
    "C66_stray_table_refuted",
    "C66_tables_filled",
    "C66_shapes_filled",
    "C66_cells"
   ],
   "note": "Proved for the conditions in the theorems. Deviations of the code from the plain reading, proved by witness: Otherwise not: a small group in both of two groups that overlap makes the smaller of these disappear, though it is not in the other. (C66_outermost_covers_refuted) Text can be written twice: a character that lies wholly in the second cell of a table is in the first cell as well, as the whole block is when 95% of it are in that cell. (C66_once_refuted) Reading order of blocks is not that of lines: of three lines of a block, the second with borders around it, the first and the third come before the second. (C66_line_order_refuted) A shaded paragraph becomes a table of one cell - not if the shading is black: then there is no table, but the shading is used up all the same. (C66_black_refuted) A page whose lines all cross the middle gets an empty table of one cell above its top edge. (C66_stray_table_refuted)"
  },
  {
   "property": "C67",
   "status": "proved",
   "theorems": [
    "C67_blank",
    "C67_rest",
    "C67_size",
    "C67_upper_edge_refuted",
    "C67_left_edge_refuted",
    "C67_full_page_refuted"
   ],
   "note": "Proved for the conditions in the theorems. Deviations of the code from the plain reading, proved by witness: an area that reaches the upper edge of the page or beyond (and leaves enough rows below) is not left out at all: [-2] counts from the end of the page. The picture is taken for graphics, too. (C67_upper_edge_refuted) The same at the left edge. (C67_left_edge_refuted) Of a picture that fills the page only the last two rows and columns are left out. (C67_full_page_refuted)"
  },
  {
   "property": "C68",
   "status": "proved",
   "theorems": [
    "C68_structure",
    "C68_borders",
    "C68_tiled",
    "C68_found",
    "C68_filled",
    "C68_shaded",
    "C68_two_tables_refuted",
    "C68_corners_refuted"
   ],
   "note": "Proved for the conditions in the theorems. Deviations of the code from the plain reading, proved by witness: Two tables one below the other, three and five columns in one row each, every line drawn, lines in order from top to bottom and left to right: the left side of the second table is lost - its first cell gets no left border, and the line stays behind as one that is no border. (C68_two_tables_refuted) A single table whose inner lines meet at corners: a line is lost. (C68_corners_refuted)"
  },
  {
   "property": "C69",
   "status": "proved",
   "theorems": [
    "C69_regions",
    "C69_cells",
    "C69_contents",
    "C69_drawn",
    "C69_margins_refuted",
    "C69_overlap_refuted"
   ],
   "note": "Proved for the conditions in the theorems. Deviations of the code from the plain reading, proved by witness: The margins of a merged cell are written once for each place it covers (w:tcPr allows one w:tcMar). (C69_margins_refuted) The table of C68_corners_refuted, whose cells overlap, with texts 1, 2, 3 in its cells: Word shows a single cell and text 3, written into a continued cell, is not shown. (C69_overlap_refuted)"
  },
  {
   "property": "C70",
   "status": "proved",
   "theorems": [
    "C70_document",
    "C70_cells_closed",
    "C70_blocks",
    "C70_displayed",
    "C70_from_page",
    "C70_layout_text",
    "C70_plain_page",
    "C70_overlap_refuted"
   ],
   "note": "Proved for the conditions in the theorems. Deviations of the code from the plain reading, proved by witness: A table whose cells overlap is written without an error, but a cell removes the text of another: text 1 is lost. (C70_overlap_refuted)"
  },
  {
   "property": "C71",
   "status": "proved",
   "theorems": [
    "C71_shape",
    "C71_text",
    "C71_lines",
    "C71_as_in_docx",
    "C71_spaces_refuted"
   ],
   "note": "Proved for the conditions in the theorems. Deviations of the code from the plain reading, proved by witness: Words run together: spaces at the ends of spans (parts of a line with different fonts) are lost. (C71_spaces_refuted)"
  },
  {
   "property": "C72",
   "status": "proved",
   "theorems": [
    "C72_text",
    "C72_link",
    "C72_format",
    "C72_styles",
    "C72_fails",
    "C72_control_refuted",
    "C72_twice_refuted",
    "C72_link_format_refuted"
   ],
   "note": "Proved for the conditions in the theorems. Deviations of the code from the plain reading, proved by witness: one control character makes writing the page fail. (C72_control_refuted) two lines under a text give two underline elements, which Word's schema does not allow. (C72_twice_refuted) the run inside a link, which has the text, has none of the span's formatting: font, size, colour are on the run around the link. (C72_link_format_refuted)"
  },
  {
   "property": "C73",
   "status": "proved",
   "theorems": [
    "C73_paragraphs",
    "C73_nothing_invented"
   ],
   "note": "Proved for the conditions in the theorems."
  },
  {
   "property": "C74",
   "status": "proved",
   "theorems": [
    "C74_placed",
    "C74_margins"
   ],
   "note": "Proved for the conditions in the theorems."
  },
  {
   "property": "C75",
   "status": "proved",
   "theorems": [
    "C75_formatted",
    "C75_adjacent_refuted",
    "C75_twice_refuted",
    "C75_two_paragraphs_refuted"
   ],
   "note": "Proved for the conditions in the theorems. Deviations of the code from the plain reading, proved by witness: two underlines (highlights) that touch, \"bc\" and \"de\", make a link over the first word disappear: the second, touching the box of \"bc\" at its right end, is taken to split it, and all its text is left with a box without width, which no later shape meets (TextSpan.py:217-273, the right part of a span none of whose characters is covered). (C75_adjacent_refuted) after a word was both underlined and highlighted over the same extent, a link over a word to the left of it, in the same run of text, disappears (same cause: the second shape touches the box of the text before the word at its right end). (C75_twice_refuted) one highlight over two paragraphs colours only the first: once a shape has formatted a block, its type is settled and it is not applied to the next one (TextBlock.py:138-140, TextSpan.py:305-328). (C75_two_paragraphs_refuted)"
  },
  {
   "property": "C76",
   "status": "proved",
   "theorems": [
    "C76_table",
    "C76_widthless_refuted"
   ],
   "note": "Proved for the conditions in the theorems. Deviations of the code from the plain reading, proved by witness: a span of no width - a mark printed over the letter before it - in a line that goes through several cells is written into each of these cells ([Rect.contains] of PyMuPDF before 1.19 holds for any empty box): the character 99 is there twice. (C76_widthless_refuted)"
  },
  {
   "property": "C77",
   "status": "proved",
   "theorems": [
    "C77_package",
    "C77_document",
    "C77_unambiguous",
    "C77_saved",
    "C77_bad_link_refuted"
   ],
   "note": "Proved for the conditions in the theorems. Deviations of the code from the plain reading, proved by witness: one address with a character XML does not have, and the whole document is lost, though every page was written without an error (the file of the same name has been removed before). (C77_bad_link_refuted)"
  },
  {
   "property": "C78",
   "status": "proved",
   "theorems": [
    "C78_written",
    "C78_left_out",
    "C78_size",
    "C78_stretched_refuted",
    "C78_unknown_refuted"
   ],
   "note": "Proved for the conditions in the theorems. Deviations of the code from the plain reading, proved by witness: the height of the picture on the PDF page does not matter: one stretched there to half its height is twice as high in Word, and one turned on its side keeps the proportions it had before. (C78_stretched_refuted) a picture python-docx does not know is left out in the text, but behind the text it ends the page with an exception. (C78_unknown_refuted)"
  },
  {
   "property": "C79",
   "status": "proved",
   "theorems": [
    "C79_others_kept",
    "C79_fine_complete",
    "C79_no_trouble",
    "C79_first_table_refuted",
    "C79_ends_with_table_refuted"
   ],
   "note": "Proved for the conditions in the theorems. Deviations of the code from the plain reading, proved by witness: if the first page raises in a table at its start, the next page takes over its section: there is one section for the two pages, of the size of the second, and what was written of the table stands in front of the second page. (C79_first_table_refuted) if the last page raises in a table, the document ends with this table (Word asks for a paragraph after it). (C79_ends_with_table_refuted)"
  },
  {
   "property": "C80",
   "status": "proved",
   "theorems": [
    "C80_history",
    "C80_as_seen",
    "C80_character",
    "C80_whole_page",
    "C80_direction",
    "C80_restore_upright",
    "C80_graphics_refuted",
    "C80_nameless_refuted"
   ],
   "note": "Proved for the conditions in the theorems. Deviations of the code from the plain reading, proved by witness: a vector graphic is found on the picture of the turned page and then turned again: one that is seen near the right edge of a landscape page gets below its lower edge. (C80_graphics_refuted) a text in a nameless font is measured from its baseline on the page that is not turned, so on a turned page it is moved: here from y = 100 to y > 400, whatever the fonts measure, as long as the measured rectangle holds the baseline and is at most twice as high as the font. (C80_nameless_refuted)"
  },
  {
   "property": "C81",
   "status": "proved",
   "theorems": [
    "C81_pages",
    "C81_page_complete",
    "C81_pictures",
    "C81_all_written",
    "C81_rest_lost_refuted"
   ],
   "note": "Proved for the conditions in the theorems. Deviations of the code from the plain reading, proved by witness: one character that XML does not allow (here U+0001, which PDF files do contain) makes the rest of its page be left out: the page has a paragraph with this character, a table and another paragraph, and nothing of them is in the document. (C81_rest_lost_refuted)"
  },
  {
   "property": "C82",
   "status": "proved",
   "theorems": [
    "C82_one_page",
    "C82_blocks",
    "C82_blank_page_refuted"
   ],
   "note": "Proved for the conditions in the theorems. Deviations of the code from the plain reading, proved by witness: text that reaches (almost) the bottom of its page. Half of the free space below becomes the bottom margin; the section break is held by a paragraph of its own, in the 11 pt type of the template, for which there is no room: Word sets it on a page of its own, which stays blank. Here the text ends 10 pt above the edge of the page, and 5 pt above the bottom margin. (C82_blank_page_refuted)"
  },
  {
   "property": "C83",
   "status": "proved",
   "theorems": [
    "C83_cells",
    "C83_clipped_refuted"
   ],
   "note": "Proved for the conditions in the theorems. Deviations of the code from the plain reading, proved by witness: the last row of a table at the end of a page is made 1 pt lower ([Blocks.parse_spacing]), and its height is exact: text just above the bottom line of its cell is cut off in Word. Here the last row of text ends at 299, where the line (of width 2, at 300) begins; the cell in Word ends at 298. (C83_clipped_refuted)"
  },
  {
   "property": "C84",
   "status": "proved",
   "theorems": [
    "C84_paragraphs",
    "C84_formatted",
    "C84_table"
   ],
   "note": "Proved for the conditions in the theorems."
  },
  {
   "property": "C85",
   "status": "proved",
   "theorems": [
    "C85_pictures"
   ],
   "note": "Proved for the conditions in the theorems."
  },
  {
   "property": "C86",
   "status": "proved",
   "theorems": [
    "C86_page"
   ],
   "note": "Proved for the conditions in the theorems."
  },
  {
   "property": "C87",
   "status": "proved",
   "theorems": [
    "C87_masked",
    "C87_unmasked",
    "C87_raises",
    "C87_soft_refuted",
    "C87_small_mask_refuted",
    "C87_large_mask_refuted"
   ],
   "note": "Proved for the conditions in the theorems. Deviations of the code from the plain reading, proved by witness: soft masks are made hard. A pixel the mask lets shine through half way (128) is opaque in the document, one that is hardly visible (1) as well. (C87_soft_refuted) a mask may be of another size than its picture (it is stretched over it). Recovering a picture with a smaller mask raises, and the whole page is not converted; here the mask is 1 x 1 and shows all of the picture. (C87_small_mask_refuted) with a larger mask the wrong pixels are hidden: its first bytes are used, whatever the length of its rows. The mask of 4 x 1 pixels hides nothing of the left half of the picture of 2 x 1 pixels and all of its right half; in the document both are visible. (C87_large_mask_refuted)"
  },
  {
   "property": "C88",
   "status": "proved",
   "theorems": [
    "C88_convert",
    "C88_nothing"
   ],
   "note": "Proved for the conditions in the theorems."
  },
  {
   "property": "C89",
   "status": "proved",
   "theorems": [
    "C89_extract",
    "C89_columns_refuted"
   ],
   "note": "Proved for the conditions in the theorems. Deviations of the code from the plain reading, proved by witness: only tables at the top level are looked for. If the page is set in two columns, all is in the cells of the layout table, and no table is returned, although the page is parsed with it: here a ruled table in the right column. (C89_columns_refuted)"
  },
  {
   "property": "C90",
   "status": "proved",
   "theorems": [
    "C90_columns",
    "C90_short_refuted"
   ],
   "note": "Proved for the conditions in the theorems. Deviations of the code from the plain reading, proved by witness: a short line at the start of the right column beside a full line of the left one, in columns that are higher than wide, is written twice - in the left column, where the row of the two becomes a table and a paragraph, and in the right one - since [Element.contains] takes a row of text of which more than 94.5% lie in a column to be in it: the hypothesis that rows are balanced cannot be left out. (C90_short_refuted)"
  },
  {
   "property": "C91",
   "status": "proved",
   "theorems": [
    "C91_headed",
    "C91_near_refuted"
   ],
   "note": "Proved for the conditions in the theorems. Deviations of the code from the plain reading, proved by witness: a line across the middle in small print that lies within 5pt of the columns - the room that is added to them - becomes the start of the first paragraph of the left column: the hypothesis that what is above and below the columns is more than 6pt away from them cannot be left out. (C91_near_refuted)"
  }
 ]
}