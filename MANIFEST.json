{
 "claims": [
  {
   "property": "C01",
   "status": "proved",
   "theorems": [
    "C01_writeint_readint",
    "C01_exact",
    "C01_buf2int_loses_top_byte",
    "C01_buf2int_refuted"
   ],
   "note": ""
  },
  {
   "property": "C02",
   "status": "proved",
   "theorems": [
    "C02_newBMP",
    "C02_stride_smallest"
   ],
   "note": ""
  },
  {
   "property": "C03",
   "status": "proved",
   "theorems": [
    "C03_bad_depth"
   ],
   "note": ""
  },
  {
   "property": "C04",
   "status": "proved",
   "theorems": [
    "C04_getxybit",
    "C04_pixel_range"
   ],
   "note": ""
  },
  {
   "property": "C05",
   "status": "proved",
   "theorems": [
    "C05_plot_reads_back"
   ],
   "note": ""
  },
  {
   "property": "C06",
   "status": "proved",
   "theorems": [
    "C06_plot_frame",
    "C06_plot_outside",
    "C06_plot_overflow"
   ],
   "note": ""
  },
  {
   "property": "C07",
   "status": "proved",
   "theorems": [
    "C07_histories"
   ],
   "note": ""
  },
  {
   "property": "C08",
   "status": "proved",
   "theorems": [
    "C08_setbmppal",
    "C08_wrong_count",
    "C08_setRGBpal",
    "C08_palette_decoded"
   ],
   "note": ""
  },
  {
   "property": "C09",
   "status": "proved",
   "theorems": [
    "C09_palshift",
    "C09_compose",
    "C09_full_cycle",
    "C09_other_depths"
   ],
   "note": ""
  },
  {
   "property": "C10",
   "status": "proved",
   "theorems": [
    "C10_save_load",
    "C10_condition",
    "C10_empty_refuted"
   ],
   "note": ""
  },
  {
   "property": "C11",
   "status": "proved",
   "theorems": [
    "C11_loadBMP",
    "C11_no_file_changed"
   ],
   "note": ""
  },
  {
   "property": "C12",
   "status": "proved",
   "theorems": [
    "C12_put_inside",
    "C12_put_rejected",
    "C12_get_inside",
    "C12_get_rejected"
   ],
   "note": ""
  },
  {
   "property": "C13",
   "status": "proved",
   "theorems": [
    "C13_iterimagecolor"
   ],
   "note": ""
  },
  {
   "property": "C14",
   "status": "proved",
   "theorems": [
    "C14_colorhistogram"
   ],
   "note": ""
  },
  {
   "property": "C15",
   "status": "proved",
   "theorems": [
    "C15_flipvertical",
    "C15_twice"
   ],
   "note": ""
  },
  {
   "property": "C16",
   "status": "proved",
   "theorems": [
    "C16_mirrortop",
    "C16_mirrorbottom"
   ],
   "note": ""
  },
  {
   "property": "C17",
   "status": "proved",
   "theorems": [
    "C17_fliphorizontal",
    "C17_empty",
    "C17_4bit_odd_refuted",
    "C17_1bit_refuted"
   ],
   "note": ""
  },
  {
   "property": "C18",
   "status": "proved",
   "theorems": [
    "C18_invert"
   ],
   "note": ""
  },
  {
   "property": "C19",
   "status": "proved",
   "theorems": [
    "C19_invertregion",
    "C19_twice",
    "C19_outside"
   ],
   "note": ""
  },
  {
   "property": "C20",
   "status": "proved",
   "theorems": [
    "C20_crop",
    "C20_outside",
    "C20_palette_refuted"
   ],
   "note": ""
  },
  {
   "property": "C21",
   "status": "proved",
   "theorems": [
    "C21_flipXY",
    "C21_twice"
   ],
   "note": ""
  },
  {
   "property": "C22",
   "status": "proved",
   "theorems": [
    "C22_filledrect24",
    "C22_filledrect1",
    "C22_filledrect4",
    "C22_filledrect8",
    "C22_outside",
    "C22_filledrect4_refuted"
   ],
   "note": ""
  },
  {
   "property": "C23",
   "status": "proved",
   "theorems": [
    "C23_horiline",
    "C23_horiline4",
    "C23_row_outside",
    "C23_left_refuted",
    "C23_right4_refuted"
   ],
   "note": ""
  },
  {
   "property": "C24",
   "status": "proved",
   "theorems": [
    "C24_vertline",
    "C24_column_outside",
    "C24_below_refuted"
   ],
   "note": ""
  },
  {
   "property": "C25",
   "status": "proved",
   "theorems": [
    "C25_iterline",
    "C25_nondiagonal",
    "C25_diagonal"
   ],
   "note": ""
  },
  {
   "property": "C26",
   "status": "proved",
   "theorems": [
    "C26_line",
    "C26_diagonal",
    "C26_diagonal_refuted"
   ],
   "note": ""
  },
  {
   "property": "C27",
   "status": "proved",
   "theorems": [
    "C27_itercircle",
    "C27_itercircle_negative",
    "C27_ring",
    "C27_circle",
    "C27_colour8_refuted"
   ],
   "note": ""
  },
  {
   "property": "C28",
   "status": "proved",
   "theorems": [
    "C28_filledcircle",
    "C28_filledcircle1",
    "C28_negative",
    "C28_disc",
    "C28_rows",
    "C28_left_refuted",
    "C28_filledcircle4_refuted"
   ],
   "note": ""
  },
  {
   "property": "C29",
   "status": "proved",
   "theorems": [
    "C29_upgrade",
    "C29_24bit",
    "C29_4bit_odd_refuted",
    "C29_1bit_refuted"
   ],
   "note": ""
  },
  {
   "property": "C30",
   "status": "proved",
   "theorems": [
    "C30_copy_paste",
    "C30_never_ends",
    "C30_in_place_refuted"
   ],
   "note": ""
  },
  {
   "property": "C31",
   "status": "proved",
   "theorems": [
    "C31_int_RGB_int",
    "C31_RGB_int_RGB",
    "C31_int2BGRarr"
   ],
   "note": ""
  },
  {
   "property": "C32",
   "status": "proved",
   "theorems": [
    "C32_exact",
    "C32_nearest",
    "C32_black",
    "C32_nearest_refuted"
   ],
   "note": ""
  },
  {
   "property": "C33",
   "status": "proved",
   "theorems": [
    "C33_flipbuf",
    "C33_involution",
    "C33_flipbuf1"
   ],
   "note": ""
  },
  {
   "property": "C34",
   "status": "proved",
   "theorems": [
    "C34_altsplitbuf",
    "C34_altsplitbufnway",
    "C34_altsplitbuf3way",
    "C34_lost_refuted",
    "C34_short_refuted"
   ],
   "note": ""
  },
  {
   "property": "C35",
   "status": "proved",
   "theorems": [
    "C35_rect_guard",
    "C35_24bit_guard",
    "C35_24bit_rect_guard",
    "C35_8or24bit_rect_guard",
    "C35_rect_guard_open"
   ],
   "note": ""
  },
  {
   "property": "C36",
   "status": "proved",
   "theorems": [
    "C36_source_missing",
    "C36_in_place",
    "C36_in_place_24bit",
    "C36_new_bitmap_region",
    "C36_new_bitmap",
    "C36_frame"
   ],
   "note": ""
  },
  {
   "property": "C37",
   "status": "proved",
   "theorems": [
    "C37_erase",
    "C37_nth",
    "C37_zero",
    "C37_region",
    "C37_bottom_row_refuted"
   ],
   "note": ""
  },
  {
   "property": "C38",
   "status": "proved",
   "theorems": [
    "C38_imagediff",
    "C38_symmetric",
    "C38_showsimilar",
    "C38_incomparable"
   ],
   "note": ""
  },
  {
   "property": "C39",
   "status": "proved",
   "theorems": [
    "C39_crossprod",
    "C39_getnormvec",
    "C39_det3D",
    "C39_det3D_refuted",
    "C39_isorthogonal",
    "C39_isorthogonal_refuted"
   ],
   "note": ""
  },
  {
   "property": "C40",
   "status": "proved",
   "theorems": [
    "C40_listinBMPrecbnd",
    "C40_refuted"
   ],
   "note": ""
  },
  {
   "property": "C41",
   "status": "proved",
   "theorems": [
    "C41_mirrorleft",
    "C41_mirrorright",
    "C41_4bit_refuted"
   ],
   "note": ""
  },
  {
   "property": "C42",
   "status": "proved",
   "theorems": [
    "C42_vertical",
    "C42_horizontal",
    "C42_mirror",
    "C42_outside",
    "C42_unaligned_refuted"
   ],
   "note": ""
  },
  {
   "property": "C43",
   "status": "proved",
   "theorems": [
    "C43_pixel_flips",
    "C43_unsorted",
    "C43_swapcolors"
   ],
   "note": ""
  },
  {
   "property": "C44",
   "status": "proved",
   "theorems": [
    "C44_corners",
    "C44_region"
   ],
   "note": ""
  },
  {
   "property": "C45",
   "status": "proved",
   "theorems": [
    "C45_resize",
    "C45_odd_width_refuted",
    "C45_1bit_refuted"
   ],
   "note": ""
  },
  {
   "property": "C46",
   "status": "proved",
   "theorems": [
    "C46_selection",
    "C46_size_refuted"
   ],
   "note": ""
  },
  {
   "property": "C47",
   "status": "proved",
   "theorems": [
    "C47_pivotlist",
    "C47_trans",
    "C47_centerpoint"
   ],
   "note": ""
  },
  {
   "property": "C48",
   "status": "proved",
   "theorems": [
    "C48_monoregion",
    "C48_monoregion_twice",
    "C48_monoimage",
    "C48_other_depth",
    "C48_outside"
   ],
   "note": ""
  },
  {
   "property": "C49",
   "status": "proved",
   "theorems": [
    "C49_colorfilter",
    "C49_colorfilterimage",
    "C49_last_column_refuted",
    "C49_overflow_refuted",
    "C49_other_depth",
    "C49_outside"
   ],
   "note": ""
  },
  {
   "property": "C50",
   "status": "proved",
   "theorems": [
    "C50_brightness",
    "C50_gamma",
    "C50_threshold",
    "C50_images",
    "C50_other_depth",
    "C50_outside"
   ],
   "note": ""
  },
  {
   "property": "C51",
   "status": "proved",
   "theorems": [
    "C51_vertical",
    "C51_horizontal",
    "C51_single_row",
    "C51_single_column",
    "C51_top_row_refuted"
   ],
   "note": ""
  },
  {
   "property": "C52",
   "status": "proved",
   "theorems": [
    "C52_outlineregion",
    "C52_outline",
    "C52_outside",
    "C52_unsorted_refuted"
   ],
   "note": ""
  },
  {
   "property": "C53",
   "status": "proved",
   "theorems": [
    "C53_refused",
    "C53_width_guard",
    "C53_tall_image_refuted",
    "C53_wide_image_refuted"
   ],
   "note": ""
  },
  {
   "property": "C54",
   "status": "proved",
   "theorems": [
    "C54_flipvert",
    "C54_flipvert_twice",
    "C54_mirrortop",
    "C54_mirrorbottom",
    "C54_part",
    "C54_last_pixel_refuted"
   ],
   "note": ""
  },
  {
   "property": "C55",
   "status": "proved",
   "theorems": [
    "C55_fliphori",
    "C55_fliphori_twice",
    "C55_mirrorleft",
    "C55_mirrorright",
    "C55_other_depth",
    "C55_disc_refuted"
   ],
   "note": ""
  },
  {
   "property": "C56",
   "status": "proved",
   "theorems": [
    "C56_invert",
    "C56_invert_twice",
    "C56_far_left_refuted",
    "C56_mono",
    "C56_mono_offscreen_refuted",
    "C56_brightness",
    "C56_gamma",
    "C56_color",
    "C56_negative_radius"
   ],
   "note": ""
  },
  {
   "property": "C57",
   "status": "proved",
   "theorems": [
    "C57_rotate",
    "C57_rotate_four_times",
    "C57_transpose",
    "C57_transpose_refuted"
   ],
   "note": ""
  },
  {
   "property": "C58",
   "status": "proved",
   "theorems": [
    "C58_copy_paste",
    "C58_copycirc",
    "C58_other_depth",
    "C58_outside"
   ],
   "note": ""
  },
  {
   "property": "C59",
   "status": "proved",
   "theorems": [
    "C59_erase",
    "C59_zero"
   ],
   "note": ""
  },
  {
   "property": "C60",
   "status": "proved",
   "theorems": [
    "C60_outlinecirc"
   ],
   "note": ""
  },
  {
   "property": "C61",
   "status": "proved",
   "theorems": [
    "C61_magnify",
    "C61_fixed",
    "C61_other_depth"
   ],
   "note": ""
  },
  {
   "property": "C62",
   "status": "proved",
   "theorems": [
    "C62_patterns",
    "C62_mirrored",
    "C62_four_bit",
    "C62_fits",
    "C62_meaning",
    "C62_clipping_refuted",
    "C62_four_bit_refuted",
    "C62_mirror_refuted",
    "C62_sideways_colours_refuted"
   ],
   "note": ""
  },
  {
   "property": "C63",
   "status": "proved",
   "theorems": [
    "C63_dots",
    "C63_mirrored",
    "C63_index_refuted"
   ],
   "note": ""
  },
  {
   "property": "C64",
   "status": "proved",
   "theorems": [
    "C64_across",
    "C64_mirrored",
    "C64_down",
    "C64_sideways",
    "C64_fits"
   ],
   "note": ""
  },
  {
   "property": "C65",
   "status": "proved",
   "theorems": [
    "C65_across",
    "C65_down_and_sideways",
    "C65_order_refuted"
   ],
   "note": ""
  },
  {
   "property": "C66",
   "status": "proved",
   "theorems": [
    "C66_forward",
    "C66_reversed"
   ],
   "note": ""
  },
  {
   "property": "C67",
   "status": "proved",
   "theorems": [
    "C67_fonts",
    "C67_sanserif_shift_refuted",
    "C67_astext"
   ],
   "note": ""
  },
  {
   "property": "C68",
   "status": "proved",
   "theorems": [
    "C68_across",
    "C68_mirrored",
    "C68_down",
    "C68_dots",
    "C68_mirrored_dots",
    "C68_down_dots"
   ],
   "note": ""
  },
  {
   "property": "C69",
   "status": "proved",
   "theorems": [
    "C69_corner",
    "C69_other_depth",
    "C69_outside"
   ],
   "note": ""
  },
  {
   "property": "C70",
   "status": "proved",
   "theorems": [
    "C70_vertical",
    "C70_horizontal",
    "C70_point",
    "C70_refused",
    "C70_threshold",
    "C70_images",
    "C70_disc_refuted"
   ],
   "note": ""
  },
  {
   "property": "C71",
   "status": "proved",
   "theorems": [
    "C71_gradient",
    "C71_dichromatic",
    "C71_background",
    "C71_one_colour",
    "C71_refused"
   ],
   "note": ""
  },
  {
   "property": "C72",
   "status": "proved",
   "theorems": [
    "C72_polyline",
    "C72_polygon",
    "C72_polygons",
    "C72_rectangle",
    "C72_empty",
    "C72_outside_refuted"
   ],
   "note": ""
  },
  {
   "property": "C73",
   "status": "proved",
   "theorems": [
    "C73_line",
    "C73_polyline",
    "C73_polygon",
    "C73_circle",
    "C73_points",
    "C73_discs",
    "C73_pen_0"
   ],
   "note": ""
  },
  {
   "property": "C74",
   "status": "proved",
   "theorems": [
    "C74_line",
    "C74_polygon",
    "C74_polyline",
    "C74_points",
    "C74_ring",
    "C74_encircle",
    "C74_circle",
    "C74_dichromic",
    "C74_dichromic_other_depth",
    "C74_orb",
    "C74_discs",
    "C74_orb_hidden_refuted"
   ],
   "note": ""
  },
  {
   "property": "C75",
   "status": "proved",
   "theorems": [
    "C75_quadrant",
    "C75_flat",
    "C75_negative",
    "C75_point_never_ends",
    "C75_no_width_refuted",
    "C75_width_refuted",
    "C75_circle_refuted"
   ],
   "note": ""
  },
  {
   "property": "C76",
   "status": "proved",
   "theorems": [
    "C76_outline",
    "C76_filled",
    "C76_gradient",
    "C76_swapped_refuted",
    "C76_overshoot_refuted",
    "C76_tall_gradient_refuted"
   ],
   "note": ""
  },
  {
   "property": "C77",
   "status": "proved",
   "theorems": [
    "C77_parallelogram",
    "C77_translate",
    "C77_holes_refuted"
   ],
   "note": ""
  },
  {
   "property": "C78",
   "status": "proved",
   "theorems": [
    "C78_grid",
    "C78_steps",
    "C78_frame_refuted",
    "C78_vertical_lines",
    "C78_horizontal_lines"
   ],
   "note": ""
  },
  {
   "property": "C79",
   "status": "proved",
   "theorems": [
    "C79_swap",
    "C79_swap_twice",
    "C79_outside_refuted"
   ],
   "note": ""
  },
  {
   "property": "C80",
   "status": "proved",
   "theorems": [
    "C80_shrink",
    "C80_even_width",
    "C80_refused",
    "C80_top_left_refuted",
    "C80_odd_width_refuted"
   ],
   "note": ""
  },
  {
   "property": "C81",
   "status": "proved",
   "theorems": [
    "C81_pixelate",
    "C81_blocks",
    "C81_refused",
    "C81_disc",
    "C81_disc_refused",
    "C81_size_refuted",
    "C81_odd_refuted",
    "C81_disc_refuted"
   ],
   "note": ""
  },
  {
   "property": "C82",
   "status": "proved",
   "theorems": [
    "C82_images",
    "C82_any_depth",
    "C82_lines",
    "C82_flipXY",
    "C82_upgrade",
    "C82_resize",
    "C82_palshift"
   ],
   "note": ""
  },
  {
   "property": "C83",
   "status": "proved",
   "theorems": [
    "C83_rectangles",
    "C83_lines",
    "C83_fill",
    "C83_colours",
    "C83_gradients",
    "C83_gradient_fill",
    "C83_outside",
    "C83_other_depth"
   ],
   "note": ""
  },
  {
   "property": "C84",
   "status": "proved",
   "theorems": [
    "C84_moves",
    "C84_corners",
    "C84_colours",
    "C84_more",
    "C84_refused"
   ],
   "note": ""
  },
  {
   "property": "C85",
   "status": "proved",
   "theorems": [
    "C85_palette",
    "C85_pixels",
    "C85_grey",
    "C85_grey_refuted"
   ],
   "note": ""
  },
  {
   "property": "C86",
   "status": "proved",
   "theorems": [
    "C86_missing",
    "C86_crop",
    "C86_crop_outside",
    "C86_crop_bound",
    "C86_crop_bound_refuted",
    "C86_crop_missing"
   ],
   "note": ""
  },
  {
   "property": "C87",
   "status": "proved",
   "theorems": [
    "C87_monochrome",
    "C87_inverse",
    "C87_dichromatic",
    "C87_refused"
   ],
   "note": ""
  },
  {
   "property": "C88",
   "status": "proved",
   "theorems": [
    "C88_painted",
    "C88_empty",
    "C88_limits_refuted"
   ],
   "note": ""
  },
  {
   "property": "C89",
   "status": "proved",
   "theorems": [
    "C89_first_escape",
    "C89_biomorph",
    "C89_range"
   ],
   "note": ""
  },
  {
   "property": "C90",
   "status": "proved",
   "theorems": [
    "C90_saved",
    "C90_same_picture"
   ],
   "note": ""
  },
  {
   "property": "C91",
   "status": "proved",
   "theorems": [
    "C91_newton",
    "C91_saved",
    "C91_palette_refuted"
   ],
   "note": ""
  },
  {
   "property": "C92",
   "status": "proved",
   "theorems": [
    "C92_ifs",
    "C92_fern",
    "C92_flower",
    "C92_filledflower"
   ],
   "note": ""
  },
  {
   "property": "C93",
   "status": "proved",
   "theorems": [
    "C93_attractor",
    "C93_saved",
    "C93_outside"
   ],
   "note": ""
  },
  {
   "property": "C94",
   "status": "proved",
   "theorems": [
    "C94_hilbert",
    "C94_orientation",
    "C94_orientation_refuted",
    "C94_saved"
   ],
   "note": ""
  },
  {
   "property": "C95",
   "status": "proved",
   "theorems": [
    "C95_koch",
    "C95_snowflake"
   ],
   "note": ""
  },
  {
   "property": "C96",
   "status": "proved",
   "theorems": [
    "C96_scan",
    "C96_bottom_row",
    "C96_all_pixels_refuted",
    "C96_point"
   ],
   "note": ""
  },
  {
   "property": "C97",
   "status": "proved",
   "theorems": [
    "C97_neighbors",
    "C97_complete",
    "C97_complete_refuted",
    "C97_negative",
    "C97_colors"
   ],
   "note": ""
  },
  {
   "property": "C98",
   "status": "proved",
   "theorems": [
    "C98_region",
    "C98_copy_header",
    "C98_saved",
    "C98_missing"
   ],
   "note": ""
  },
  {
   "property": "C99",
   "status": "proved",
   "theorems": [
    "C99_edges",
    "C99_sound",
    "C99_plot",
    "C99_autocrop",
    "C99_autocrop_plain",
    "C99_autocrop_missing",
    "C99_autocrop_refuted"
   ],
   "note": ""
  },
  {
   "property": "C100",
   "status": "proved",
   "theorems": [
    "C100_choice",
    "C100_set",
    "C100_stored_refuted"
   ],
   "note": ""
  },
  {
   "property": "C101",
   "status": "proved",
   "theorems": [
    "C101_reduced",
    "C101_mono",
    "C101_one_bit",
    "C101_refused",
    "C101_missing",
    "C101_colors_refuted"
   ],
   "note": ""
  },
  {
   "property": "C102",
   "status": "proved",
   "theorems": [
    "C102_dict",
    "C102_dict24",
    "C102_dict_overflow",
    "C102_black_refuted",
    "C102_brightness"
   ],
   "note": ""
  },
  {
   "property": "C103",
   "status": "proved",
   "theorems": [
    "C103_frames",
    "C103_names",
    "C103_refused",
    "C103_missing"
   ],
   "note": ""
  },
  {
   "property": "C104",
   "status": "proved",
   "theorems": [
    "C104_sphere",
    "C104_sphere_colors",
    "C104_sphere_refused",
    "C104_fern",
    "C104_koch"
   ],
   "note": ""
  },
  {
   "property": "C105",
   "status": "proved",
   "theorems": [
    "C105_text",
    "C105_all_rows_refuted"
   ],
   "note": ""
  },
  {
   "property": "C106",
   "status": "proved",
   "theorems": [
    "C106_fill",
    "C106_vertices",
    "C106_rectangle",
    "C106_outside",
    "C106_empty",
    "C106_concave_refuted",
    "C106_diagonal_refuted",
    "C106_four_bit_refuted"
   ],
   "note": ""
  },
  {
   "property": "C107",
   "status": "proved",
   "theorems": [
    "C107_outline",
    "C107_filled",
    "C107_cut",
    "C107_none",
    "C107_degenerate"
   ],
   "note": ""
  },
  {
   "property": "C108",
   "status": "proved",
   "theorems": [
    "C108_pie",
    "C108_empty",
    "C108_total_zero",
    "C108_thin",
    "C108_halves_refuted"
   ],
   "note": ""
  },
  {
   "property": "C109",
   "status": "proved",
   "theorems": [
    "C109_faces",
    "C109_plot3d"
   ],
   "note": ""
  },
  {
   "property": "C110",
   "status": "proved",
   "theorems": [
    "C110_test",
    "C110_order",
    "C110_sides",
    "C110_index",
    "C110_front",
    "C110_tetrahedron_refuted"
   ],
   "note": ""
  },
  {
   "property": "C111",
   "status": "proved",
   "theorems": [
    "C111_tables",
    "C111_cube",
    "C111_octahedron",
    "C111_tetrahedron_refuted",
    "C111_hexahedron_refuted",
    "C111_sphere_refuted",
    "C111_cylinder",
    "C111_cone",
    "C111_step_zero",
    "C111_cylinder_refuted",
    "C111_sphere",
    "C111_sphere_levels"
   ],
   "note": ""
  },
  {
   "property": "C112",
   "status": "proved",
   "theorems": [
    "C112_plot",
    "C112_step_zero",
    "C112_narrow",
    "C112_uneven_refuted"
   ],
   "note": ""
  },
  {
   "property": "C113",
   "status": "proved",
   "theorems": [
    "C113_transform",
    "C113_inverse",
    "C113_odd_last"
   ],
   "note": ""
  },
  {
   "property": "C114",
   "status": "proved",
   "theorems": [
    "C114_mean",
    "C114_deviations",
    "C114_stddev",
    "C114_least_squares",
    "C114_line",
    "C114_pearson",
    "C114_coefvar"
   ],
   "note": ""
  },
  {
   "property": "C115",
   "status": "proved",
   "theorems": [
    "C115_lerp",
    "C115_clamp",
    "C115_smoothstep",
    "C115_clamped_refuted",
    "C115_smoothstep_same",
    "C115_steplerp"
   ],
   "note": ""
  },
  {
   "property": "C116",
   "status": "proved",
   "theorems": [
    "C116_bezier",
    "C116_bezier_box",
    "C116_bezier_last_ignored",
    "C116_bezier_end_refuted",
    "C116_bezier_single_refuted",
    "C116_empty",
    "C116_bspline",
    "C116_bspline_box",
    "C116_weights",
    "C116_joins",
    "C116_bspline_first_ignored",
    "C116_bspline_start_refuted"
   ],
   "note": ""
  },
  {
   "property": "C117",
   "status": "proved",
   "theorems": [
    "C117_decimal",
    "C117_decimal_unique",
    "C117_numbers",
    "C117_arrow",
    "C117_axes",
    "C117_no_steps",
    "C117_marks",
    "C117_grid_refuted"
   ],
   "note": ""
  },
  {
   "property": "C118",
   "status": "proved",
   "theorems": [
    "C118_scale",
    "C118_screen",
    "C118_screen_zero",
    "C118_points",
    "C118_line",
    "C118_same_x",
    "C118_corner_refuted",
    "C118_below_refuted",
    "C118_regression_refuted"
   ],
   "note": ""
  },
  {
   "property": "C119",
   "status": "proved",
   "theorems": [
    "C119_brightness",
    "C119_brightness_order",
    "C119_threshold",
    "C119_filter",
    "C119_gamma"
   ],
   "note": ""
  },
  {
   "property": "C120",
   "status": "proved",
   "theorems": [
    "C120_brightness",
    "C120_filter",
    "C120_threshold",
    "C120_gamma",
    "C120_monochrome",
    "C120_depth_refuted"
   ],
   "note": ""
  },
  {
   "property": "C121",
   "status": "proved",
   "theorems": [
    "C121_eases",
    "C121_mixture",
    "C121_rectangle",
    "C121_background",
    "C121_second_colour_refuted",
    "C121_brightness",
    "C121_layers",
    "C121_rings",
    "C121_brightness_rectangle",
    "C121_dichromic_circle"
   ],
   "note": ""
  },
  {
   "property": "C122",
   "status": "proved",
   "theorems": [
    "C122_monochrome",
    "C122_dichromatic"
   ],
   "note": ""
  },
  {
   "property": "C123",
   "status": "proved",
   "theorems": [
    "C123_hsl",
    "C123_grey",
    "C123_hue_360_refuted"
   ],
   "note": ""
  },
  {
   "property": "C124",
   "status": "proved",
   "theorems": [
    "C124_match",
    "C124_shown",
    "C124_colour_refuted",
    "C124_random",
    "C124_random_dark"
   ],
   "note": ""
  },
  {
   "property": "C125",
   "status": "proved",
   "theorems": [
    "C125_sum",
    "C125_sum_order",
    "C125_mirror",
    "C125_lists",
    "C125_triplet",
    "C125_bounds",
    "C125_no_points",
    "C125_histogram",
    "C125_histogram_flat",
    "C125_listinrecbnd",
    "C125_listinrecbnd_refuted",
    "C125_distancetable",
    "C125_distancetable_once",
    "C125_countdist",
    "C125_spiral",
    "C125_spiral_even"
   ],
   "note": ""
  },
  {
   "property": "C126",
   "status": "proved",
   "theorems": [
    "C126_polar",
    "C126_polar_back",
    "C126_polar_refuted",
    "C126_spherical",
    "C126_cylindrical",
    "C126_cylindrical_refuted",
    "C126_clock",
    "C126_clock_centre",
    "C126_rotation",
    "C126_direction",
    "C126_cosaffin",
    "C126_dist",
    "C126_arrow",
    "C126_arrow_screen",
    "C126_barb_length",
    "C126_polygon",
    "C126_polygon_sides_refuted",
    "C126_polygon_errors",
    "C126_polygon_rounded"
   ],
   "note": ""
  },
  {
   "property": "C127",
   "status": "proved",
   "theorems": [
    "C127_arc",
    "C127_slices",
    "C127_cover",
    "C127_disjoint",
    "C127_total_0"
   ],
   "note": ""
  },
  {
   "property": "C128",
   "status": "proved",
   "theorems": [
    "C128_endless",
    "C128_empty",
    "C128_lissajous",
    "C128_epicycloid",
    "C128_hypotrochoid",
    "C128_hypotrochoid_refuted",
    "C128_spirograph",
    "C128_spirograph_refuted",
    "C128_involute",
    "C128_involute_refuted",
    "C128_zero_division"
   ],
   "note": ""
  },
  {
   "property": "C129",
   "status": "proved",
   "theorems": [
    "C129_whole",
    "C129_flower",
    "C129_superellipse",
    "C129_squircle",
    "C129_gear",
    "C129_cornu",
    "C129_heart",
    "C129_egg",
    "C129_egg_refuted"
   ],
   "note": ""
  },
  {
   "property": "C130",
   "status": "proved",
   "theorems": [
    "C130_perspective",
    "C130_cube",
    "C130_tetrahedra_refuted",
    "C130_hexahedra_refuted",
    "C130_octahedra_refuted",
    "C130_octahedra",
    "C130_icosahedra",
    "C130_icosahedra_refuted",
    "C130_decahedra",
    "C130_sphere",
    "C130_sphere_refuted",
    "C130_sphere_count",
    "C130_cylinder",
    "C130_cone",
    "C130_step_0"
   ],
   "note": ""
  },
  {
   "property": "C131",
   "status": "proved",
   "theorems": [
    "C131_multibrot",
    "C131_multijulia",
    "C131_multicorn",
    "C131_lambda",
    "C131_tree",
    "C131_stable",
    "C131_multibrot_outside",
    "C131_multicorn_outside",
    "C131_julia_outside",
    "C131_lambda_outside",
    "C131_tree_outside",
    "C131_julia_refuted",
    "C131_lambda_refuted",
    "C131_tree_refuted",
    "C131_mandelbrot_set",
    "C131_multibrot_set",
    "C131_multicorn_set",
    "C131_julia_set",
    "C131_symmetry",
    "C131_rotation",
    "C131_iterator",
    "C131_mirror",
    "C131_picture",
    "C131_empty"
   ],
   "note": ""
  },
  {
   "property": "C132",
   "status": "proved",
   "theorems": [
    "C132_functions",
    "C132_biomorphs",
    "C132_multibiomorph",
    "C132_symmetry",
    "C132_sums",
    "C132_sum_symmetry",
    "C132_ngon",
    "C132_ngon_outside",
    "C132_ngon_rotation",
    "C132_circles",
    "C132_hyperbolas",
    "C132_astroid",
    "C132_lemniscate",
    "C132_superellipse_refuted",
    "C132_superellipse"
   ],
   "note": ""
  },
  {
   "property": "C133",
   "status": "proved",
   "theorems": [
    "C133_method",
    "C133_functions",
    "C133_root",
    "C133_exact",
    "C133_multiple_refuted",
    "C133_mirror",
    "C133_rotation",
    "C133_converges",
    "C133_picture"
   ],
   "note": ""
  },
  {
   "property": "C134",
   "status": "proved",
   "theorems": [
    "C134_orbits",
    "C134_duffing",
    "C134_bounds",
    "C134_ikeda_bound",
    "C134_icon",
    "C134_icon_singular",
    "C134_icon_rotation",
    "C134_icon_rotation_refuted",
    "C134_icon_mirror",
    "C134_picture",
    "C134_flat",
    "C134_returns",
    "C134_attractors"
   ],
   "note": ""
  },
  {
   "property": "C135",
   "status": "proved",
   "theorems": [
    "C135_picture",
    "C135_contract",
    "C135_sierpinski",
    "C135_cantortree",
    "C135_tree",
    "C135_fern",
    "C135_fern_fits",
    "C135_drawfern"
   ],
   "note": ""
  },
  {
   "property": "C136",
   "status": "proved",
   "theorems": [
    "C136_escape",
    "C136_biomorphs",
    "C136_curves",
    "C136_mirror",
    "C136_turn",
    "C136_xor",
    "C136_xor_pixels",
    "C136_xor_square",
    "C136_refused",
    "C136_xor_refuted"
   ],
   "note": ""
  },
  {
   "property": "C137",
   "status": "proved",
   "theorems": [
    "C137_time",
    "C137_time_refuted",
    "C137_lumranges",
    "C137_lumranges_refuted",
    "C137_vectors",
    "C137_rows",
    "C137_jitter",
    "C137_quotients",
    "C137_tetration",
    "C137_total",
    "C137_ttest",
    "C137_ttest_error",
    "C137_smoothstep",
    "C137_gamma",
    "C137_gamma_monotone",
    "C137_gamma_refuted"
   ],
   "note": ""
  },
  {
   "property": "C138",
   "status": "proved",
   "theorems": [
    "C138_transform",
    "C138_inverse",
    "C138_energy",
    "C138_linear",
    "C138_real",
    "C138_shift",
    "C138_convolution",
    "C138_tone",
    "C138_bound"
   ],
   "note": ""
  },
  {
   "property": "C139",
   "status": "proved",
   "theorems": [
    "C139_quotients",
    "C139_exact_models",
    "C139_colours",
    "C139_brightness",
    "C139_filter",
    "C139_threshold",
    "C139_threshold_refuted",
    "C139_gamma",
    "C139_gamma_identity",
    "C139_gamma_refuted",
    "C139_grey",
    "C139_mix",
    "C139_mix_refuted",
    "C139_blend"
   ],
   "note": ""
  },
  {
   "property": "C140",
   "status": "proved",
   "theorems": [
    "C140_gradient",
    "C140_lerp",
    "C140_lerp_refuted",
    "C140_orb",
    "C140_interpolate",
    "C140_rows",
    "C140_distance",
    "C140_pie",
    "C140_pie_refuted"
   ],
   "note": ""
  },
  {
   "property": "C141",
   "status": "proved",
   "theorems": [
    "C141_nearest",
    "C141_threshold",
    "C141_bspline",
    "C141_bspline_box",
    "C141_bspline_empty"
   ],
   "note": ""
  },
  {
   "property": "C142",
   "status": "proved",
   "theorems": [
    "C142_cylinder",
    "C142_cone",
    "C142_sphere",
    "C142_zero"
   ],
   "note": ""
  },
  {
   "property": "C143",
   "status": "proved",
   "theorems": [
    "C143_shrink",
    "C143_pixelate",
    "C143_half_refuted",
    "C143_mean",
    "C143_mean_empty",
    "C143_deviations",
    "C143_slope",
    "C143_pearson"
   ],
   "note": ""
  },
  {
   "property": "C144",
   "status": "proved",
   "theorems": [
    "C144_point",
    "C144_plot",
    "C144_axis",
    "C144_order",
    "C144_limit_refuted",
    "C144_half_refuted"
   ],
   "note": ""
  },
  {
   "property": "C145",
   "status": "proved",
   "theorems": [
    "C145_total",
    "C145_mirror",
    "C145_halfturn",
    "C145_segment",
    "C145_far",
    "C145_leaves",
    "C145_cusp_refuted",
    "C145_picture",
    "C145_disc",
    "C145_beyond",
    "C145_unit",
    "C145_tricorn"
   ],
   "note": ""
  },
  {
   "property": "C146",
   "status": "proved",
   "theorems": [
    "C146_count",
    "C146_dyadic",
    "C146_ends",
    "C146_endless",
    "C146_extra_refuted",
    "C146_lissajous",
    "C146_box",
    "C146_epicycloid",
    "C146_hypotrochoid",
    "C146_zero",
    "C146_spirograph",
    "C146_involute"
   ],
   "note": ""
  },
  {
   "property": "C147",
   "status": "proved",
   "theorems": [
    "C147_lerp_ends",
    "C147_lerp",
    "C147_lerp_between",
    "C147_invlerp",
    "C147_round_trip",
    "C147_steps",
    "C147_step_ends",
    "C147_steplerp_ends",
    "C147_steplerp",
    "C147_lerp_refuted",
    "C147_order_refuted",
    "C147_above_refuted"
   ],
   "note": ""
  },
  {
   "property": "C148",
   "status": "proved",
   "theorems": [
    "C148_radians",
    "C148_rotation",
    "C148_rotation_none",
    "C148_polygon",
    "C148_polygon_other",
    "C148_perspective",
    "C148_perspective_zero",
    "C148_flower",
    "C148_flower_none"
   ],
   "note": ""
  },
  {
   "property": "C149",
   "status": "proved",
   "theorems": [
    "C149_bezier",
    "C149_bezier_box",
    "C149_bezier_other",
    "C149_brightness",
    "C149_brightness_ends",
    "C149_brightness_refuted"
   ],
   "note": ""
  },
  {
   "property": "C150",
   "status": "proved",
   "theorems": [
    "C150_length",
    "C150_distance",
    "C150_directions",
    "C150_directions_zero",
    "C150_spherical",
    "C150_angle",
    "C150_angle_centre",
    "C150_arc",
    "C150_cosine_refuted"
   ],
   "note": ""
  },
  {
   "property": "C151",
   "status": "proved",
   "theorems": [
    "C151_chart",
    "C151_nothing",
    "C151_total_zero",
    "C151_rim"
   ],
   "note": ""
  },
  {
   "property": "C152",
   "status": "proved",
   "theorems": [
    "C152_plain",
    "C152_compensated",
    "C152_light",
    "C152_order",
    "C152_straight",
    "C152_colour",
    "C152_faces",
    "C152_plot3d",
    "C152_away_refuted"
   ],
   "note": ""
  },
  {
   "property": "C153",
   "status": "proved",
   "theorems": [
    "C153_test",
    "C153_normal",
    "C153_sides",
    "C153_whole",
    "C153_shade",
    "C153_edge_refuted",
    "C153_points",
    "C153_solid"
   ],
   "note": ""
  },
  {
   "property": "C154",
   "status": "proved",
   "theorems": [
    "C154_names",
    "C154_hsl",
    "C154_factors",
    "C154_plain",
    "C154_digits_refuted",
    "C154_shifted_refuted"
   ],
   "note": ""
  },
  {
   "property": "C155",
   "status": "proved",
   "theorems": [
    "C155_cylinder",
    "C155_cone",
    "C155_solid",
    "C155_sphere",
    "C155_slices",
    "C155_zero",
    "C155_ball"
   ],
   "note": ""
  },
  {
   "property": "C156",
   "status": "proved",
   "theorems": [
    "C156_squircle",
    "C156_tip_refuted",
    "C156_dot"
   ],
   "note": ""
  }
 ]
}