{
 "claims": [
  {
   "property": "C01",
   "status": "proved",
   "theorems": [
    "C01_opaque_top",
    "C01_transparent_top",
    "C01_both_empty",
    "C01_alpha_over"
   ],
   "note": "Full statement; accuracy against the exact over operator is also bounded (259/65535)."
  },
  {
   "property": "C02",
   "status": "proved",
   "theorems": [
    "C02_total"
   ],
   "note": "All modes including undefined values, all draws."
  },
  {
   "property": "C03",
   "status": "partial",
   "theorems": [
    "C03_per_channel_refuted",
    "C03_per_channel_red_partial",
    "C03_per_channel_grey_bottom_partial",
    "C03_per_channel_extent_partial"
   ],
   "note": "REFUTED: composite.go:174-175 feed bottom.R to all three channels. Red channel and grey bottoms proved; for every bottom and top the value of each channel is given (C03_per_channel_extent_partial)."
  },
  {
   "property": "C04",
   "status": "proved",
   "theorems": [
    "C04_keeps_alpha",
    "C04_empty_bottom",
    "C04_transparent_top"
   ],
   "note": ""
  },
  {
   "property": "C05",
   "status": "proved",
   "theorems": [
    "C05_arithmetic_modes"
   ],
   "note": "All ten arithmetic modes, all 2^32 pairs."
  },
  {
   "property": "C06",
   "status": "partial",
   "theorems": [
    "C06_burn_refuted",
    "C06_burn_saturation_refuted",
    "C06_burn_partial",
    "C06_burn_extent_partial"
   ],
   "note": "REFUTED: uint32 underflow makes every saturating burn white. C06_burn_extent_partial: the documented value comes out exactly when 1 - x <= y and y > 0; otherwise white (black for white on black)."
  },
  {
   "property": "C07",
   "status": "partial",
   "theorems": [
    "C07_hardlight_refuted",
    "C07_hardlight_partial",
    "C07_hardlight_extent_partial"
   ],
   "note": "REFUTED at exactly one pair (0, 0x7fff), proved for all other pairs."
  },
  {
   "property": "C08",
   "status": "partial",
   "theorems": [
    "C08_overlay_refuted",
    "C08_overlay_black_top_partial",
    "C08_overlay_equal_partial",
    "C08_overlay_extent_partial"
   ],
   "note": "REFUTED: t is computed from y instead of x. C08_overlay_extent_partial: for all inputs the error is y(x-y)(x+y-2) on the unit scale, to within 4/65535, so only black tops and equal inputs are right."
  },
  {
   "property": "C09",
   "status": "partial",
   "theorems": [
    "C09_grainmerge_refuted",
    "C09_grain_roundtrip_refuted",
    "C09_grainmerge_partial",
    "C09_grainmerge_extent_partial"
   ],
   "note": "REFUTED: adds instead of subtracting the neutral grey. C09_grainmerge_extent_partial: the value for all inputs; it is the documented one exactly where that is full white."
  },
  {
   "property": "C10",
   "status": "partial",
   "theorems": [
    "C10_dissolve_refuted",
    "C10_dissolve_partial",
    "C10_dissolve_extent_partial"
   ],
   "note": "REFUTED: the draw is compared with the bottom alpha. C10_dissolve_extent_partial: for every draw and pair of colours, exactly when the answer is the documented one."
  },
  {
   "property": "C11",
   "status": "partial",
   "theorems": [
    "C11_porter_duff_refuted",
    "C11_porter_duff_partial"
   ],
   "note": "REFUTED: all five operators are implemented as Normal."
  },
  {
   "property": "C12",
   "status": "proved",
   "theorems": [
    "C12_hsv_roundtrip"
   ],
   "note": "Bound 8/65535."
  },
  {
   "property": "C13",
   "status": "partial",
   "theorems": [
    "C13_hsl_roundtrip_refuted",
    "C13_hsl_roundtrip_partial",
    "C13_hsl_extent_partial"
   ],
   "note": "REFUTED for chromatic colours; achromatic colours, alpha and lightness proved. C13_hsl_extent_partial: every colour comes back with some channel off by at least a quarter of its spread (max - min) less 9/65535."
  },
  {
   "property": "C14",
   "status": "partial",
   "theorems": [
    "C14_value_mode",
    "C14_saturation_mode",
    "C14_hue_mode",
    "C14_hue_mode_takes_hue",
    "C14_hue_grey_top",
    "C14_luminosity_mode",
    "C14_color_mode_refuted"
   ],
   "note": "Hue, Saturation, Value proved in full; which components Color and Luminosity take; REFUTED for Color (lightness and alpha not kept)."
  },
  {
   "property": "C15",
   "status": "proved",
   "theorems": [
    "C15_color_contract"
   ],
   "note": ""
  },
  {
   "property": "C16",
   "status": "proved",
   "theorems": [
    "C16_ToNRGBA_agrees",
    "C16_library_types_exact"
   ],
   "note": ""
  },
  {
   "property": "C17",
   "status": "partial",
   "theorems": [
    "C17_rgb_model_idempotent",
    "C17_rgb_model_identity",
    "C17_grayalpha_model_refuted",
    "C17_grayalpha_model_partial",
    "C17_grayalpha_extent_partial"
   ],
   "note": "RGBModel proved; REFUTED for GrayAlphaModel on translucent greys. C17_grayalpha_extent_partial: the model multiplies the intensity by the alpha; it keeps a GrayAlpha exactly when opaque or black."
  },
  {
   "property": "C18",
   "status": "proved",
   "theorems": [
    "C18_palette_nearest",
    "C18_palette_member",
    "C18_palette_member_8bit"
   ],
   "note": ""
  },
  {
   "property": "C19",
   "status": "proved",
   "theorems": [
    "C19_layer_At",
    "C19_masked_At",
    "C19_monotone"
   ],
   "note": ""
  },
  {
   "property": "C20",
   "status": "proved",
   "theorems": [
    "C20_rgb_is_a_map",
    "C20_grayalpha_is_a_map",
    "C20_palettedalpha_is_a_map",
    "C20_palettedalpha_At",
    "C20_new"
   ],
   "note": ""
  },
  {
   "property": "C21",
   "status": "proved",
   "theorems": [
    "C21_rgb_subimage_shared",
    "C21_grayalpha_subimage_shared",
    "C21_palettedalpha_subimage_shared"
   ],
   "note": ""
  },
  {
   "property": "C22",
   "status": "partial",
   "theorems": [
    "C22_rgb_opaque",
    "C22_grayalpha_opaque_refuted",
    "C22_grayalpha_opaque_partial",
    "C22_palettedalpha_opaque_refuted"
   ],
   "note": "RGB proved. REFUTED for GrayAlpha sub-images (true answers are right, whole images exact) and for PalettedAlpha (answers the opposite)."
  },
  {
   "property": "C23",
   "status": "proved",
   "theorems": [
    "C23_fold",
    "C23_fold_palette",
    "C23_unseen_layer",
    "C23_opaque_hides",
    "C23_nested",
    "C23_total",
    "C23_deterministic"
   ],
   "note": "When the first layer has a palette model the code composites by threshold; stated separately (C23_fold_palette)."
  },
  {
   "property": "C24",
   "status": "proved",
   "theorems": [
    "C24_bounds_least",
    "C24_order_independent",
    "C24_layer"
   ],
   "note": ""
  },
  {
   "property": "C25",
   "status": "partial",
   "theorems": [
    "C25_layer_subimage_refuted",
    "C25_layer_subimage_shifts",
    "C25_subimage_partial",
    "C25_bounds"
   ],
   "note": "REFUTED: a sub-image that cuts off the left or top shows shifted pixels; exact for layers that keep their origin."
  },
  {
   "property": "C26",
   "status": "proved",
   "theorems": [
    "C26_rle_round_trip",
    "C26_rle_well_formed",
    "C26_rle_65536_wraps"
   ],
   "note": "round trip for every byte string below 65536 bytes, any source, position, stale buffer and following bytes; the bound is shown to be needed"
  },
  {
   "property": "C27",
   "status": "proved",
   "theorems": [
    "C27_rle_size"
   ],
   "note": "for byte strings of every length"
  },
  {
   "property": "C28",
   "status": "partial",
   "theorems": [
    "C28_rle_terminates",
    "C28_rle_safe_partial",
    "C28_rle_safe_refuted"
   ],
   "note": "termination for all sources; exactness for every source that reports io.EOF on short reads. REFUTED at the 16 MiB limit of the reader: a literal run cut there is returned with nil error and stale bytes"
  },
  {
   "property": "C29",
   "status": "proved",
   "theorems": [
    "C29_rle_split"
   ],
   "note": "for sources that report io.EOF on short reads (every file below 16 MiB)"
  },
  {
   "property": "C30",
   "status": "proved",
   "theorems": [
    "C30_copy_iff",
    "C30_copy_total",
    "C30_copy_then_decode",
    "C30_eager_then_copy"
   ],
   "note": ""
  },
  {
   "property": "C31",
   "status": "proved",
   "theorems": [
    "C31_shows_coded_pixels",
    "C31_history_independent",
    "C31_truncated_tile_shows_history"
   ],
   "note": "At on a CompressedXxx image whose tiles hold the coded pixels shows exactly the coded pixel after every history of At calls, for the six types and all sizes; for tiles shorter than declared (which readRLE never produces, C30) the cache is visible, and the third theorem exhibits that."
  },
  {
   "property": "C32",
   "status": "partial",
   "theorems": [
    "C32_same_pixels_partial",
    "C32_same_pixels_refuted",
    "C32_outside_refuted"
   ],
   "note": "REFUTED for masked layers: DecodeCompressed panics on a file Encode wrote (type assertion in readMask); and for At outside the bounds of indexed layers (first palette colour against black). Proved for every mask-free layered image of every size and colour type whose layers lie in the canvas (files below the 16 MiB reading limit)."
  },
  {
   "property": "C33",
   "status": "proved",
   "theorems": [
    "C33_written",
    "C33_read",
    "C33_rejects"
   ],
   "note": "the length word 0 (null string of the format) is read as the empty string"
  },
  {
   "property": "C34",
   "status": "partial",
   "theorems": [
    "C34_partial",
    "C34_refuted",
    "C34_losses"
   ],
   "note": "REFUTED: Luminosity is written with the number of ColorErase; Luminance, Plus, DestinationIn/Out, SourceAtop, DestinationAtop are written as Normal. C34_partial: exactly the other modes survive"
  },
  {
   "property": "C35",
   "status": "proved",
   "theorems": [
    "C35_tiles_round_trip"
   ],
   "note": "Every image, size and colour type: the bytes WriteImage writes, read by readImage at their place in any file below 4 GiB, give the converted pixels."
  },
  {
   "property": "C36",
   "status": "partial",
   "theorems": [
    "C36_round_trip_partial",
    "C36_bottom_mode",
    "C36_round_trip_refuted"
   ],
   "note": "REFUTED: a layer away from the canvas origin is cut off (the canvas gets the size of the bounds, the layers keep absolute offsets). Proved for all trees whose layers lie inside the canvas and whose modes and names XCF can express; the lowest layer's mode becomes Normal unless Dissolve."
  },
  {
   "property": "C37",
   "status": "partial",
   "theorems": [
    "C37_plain_survives_refuted",
    "C37_plain_rejected"
   ],
   "note": "REFUTED for every plain image with a non-zero side: Decode answers ErrInconsistantData (universal theorem and an explicit file)."
  },
  {
   "property": "C38",
   "status": "proved",
   "theorems": [
    "C38_hole_free_linked"
   ],
   "note": "For destinations on which writes succeed and images whose parts have non-inverted bounds and fewer than 2^32 tiles and layers; linking for files up to 4 GiB (pointers are 32 bit). Conditional on Encode not panicking (an At of a leaf image, text building)."
  },
  {
   "property": "C39",
   "status": "proved",
   "theorems": [
    "C39_reported"
   ],
   "note": "for every destination that keeps io.WriterAt's contract (fewer bytes only with an error); the error is that of one of the calls"
  },
  {
   "property": "C40",
   "status": "partial",
   "theorems": [
    "C40_partial",
    "C40_text_partial",
    "C40_config",
    "C40_refuted"
   ],
   "note": "REFUTED: a picture of width 0 and height above 2^32-64 makes the uint32 row counter wrap for ever (C40_refuted: explicit 111-byte file, every amount of fuel); text data such as (a ?) does it too (C62_refuted). DecodeConfig terminates on every byte string (C40_config). Decode and DecodeCompressed terminate, with an answer independent of the fuel, on every byte string that has no pixels (a header and a level with the same size, where the header's pointer leads) of width 0 and height above 2^32-64 and no text parasite whose data hangs the text parser (C40_partial), in particular when that data is clean (C40_text_partial)."
  },
  {
   "property": "C41",
   "status": "partial",
   "theorems": [
    "C41_partial",
    "C41_returns",
    "C41_text_returns",
    "C41_config",
    "C41_refuted"
   ],
   "note": "REFUTED: base type 3, huge sizes and (DecodeCompressed) masks panic (C41_refuted, explicit files); short text tags too (C62_refuted). C41_partial: every panic has one of five named causes visible in the file: pixels (a header and a level of one size) of more than 2^46 pixels, pixels of a width or height above 2^32-64, an unknown base type, a mask under DecodeCompressed, a text parasite with data on which the text parser panics; slice and index expressions never fail. C41_returns, C41_text_returns: Decode answers every file without them. C41_config: DecodeConfig never panics."
  },
  {
   "property": "C42",
   "status": "partial",
   "theorems": [
    "C42_small_files_partial",
    "C42_prefix_only_refuted",
    "C42_far_layer_refuted",
    "C42_whole_file_refuted"
   ],
   "note": "newReader limits every reader to the first 16 MiB: Decode depends only on that prefix (C42_prefix_only_refuted), rejects every laid out file with a layer beyond it (C42_far_layer_refuted), e.g. the explicit file that Encode itself writes for two one-pixel layers, the first with a long name (C42_whole_file_refuted). Below the limit Decode equals decoding the whole file (C42_small_files_partial)."
  },
  {
   "property": "C43",
   "status": "proved",
   "theorems": [
    "C43_header",
    "C43_rejected"
   ],
   "note": ""
  },
  {
   "property": "C44",
   "status": "partial",
   "theorems": [
    "C44_config_partial",
    "C44_refuted"
   ],
   "note": "For every file that Decode accepts, other than indexed files of versions 4-10, DecodeConfig succeeds, reports the header's size (every top layer lies in it) and the colour model and palette of every decoded picture (C44_config_partial). C44_refuted: an explicit indexed version-4 file that Decode accepts and DecodeConfig rejects, because DecodeConfig reads the precision word only for versions 11 and up."
  },
  {
   "property": "C45",
   "status": "partial",
   "theorems": [
    "C45_partial",
    "C45_list_partial",
    "C45_refuted"
   ],
   "note": "REFUTED: guides, sample points, colour maps of non-indexed images and vectors with points are consumed with the wrong length, and declared lengths of fixed-size properties are ignored. C45_partial: every other property the format allows (booleans, opacity, tattoo, compression, resolution, unit, user unit, parasites, old paths, vectors whose strokes have no points, indexed colour maps, unknown types) is framed; C45_list_partial: so is every list of such properties."
  },
  {
   "property": "C46",
   "status": "proved",
   "theorems": [
    "C46_order_independent"
   ],
   "note": ""
  },
  {
   "property": "C47",
   "status": "partial",
   "theorems": [
    "C47_rebuilds_tree",
    "C47_accepted",
    "C47_errors",
    "C47_rebuilds_tree_refuted"
   ],
   "note": "proved for all trees whose item-path labels are Unicode scalar values (every group with fewer than 55296 children) and for all layer lists with such paths. REFUTED beyond: labels in the surrogate range share one map key and groups are confused"
  },
  {
   "property": "C48",
   "status": "partial",
   "theorems": [
    "C48_clipping_partial",
    "C48_clipping_refuted",
    "C48_clipping_shifts"
   ],
   "note": "REFUTED for layers with a negative offset: the clipped layer shows the wrong pixels (moved by the part cut off); proved for every tree whose layers start inside the canvas"
  },
  {
   "property": "C49",
   "status": "proved",
   "theorems": [
    "C49_layers",
    "C49_exclusive",
    "C49_sticky",
    "C49_terminates",
    "C49_no_deadlock",
    "C49_decode",
    "C49_decode_returns"
   ],
   "note": "Interleaving model of readLayers (spawn loop, errLock, non-atomic SetError, WaitGroup). Reading one layer is one step: a goroutine has its own reader and layers[n]; the shared ReaderAt is the subject of C50. Sequential consistency is assumed; exclusive use of dr.Err is proved."
  },
  {
   "property": "C50",
   "status": "partial",
   "theorems": [
    "C50_bytes_partial",
    "C50_bufio",
    "C50_exclusive",
    "C50_progress_partial",
    "C50_block_refuted",
    "C50_unseeked_refuted",
    "C50_short_refuted"
   ],
   "note": "For every number of callers and every interleaving, each ReadAt that returns gives the bytes at its offset if the ReadSeeker starts at 0 (ensured by bufioToReader, not by GetReaderAt on a plain ReadSeeker: C50_unseeked_refuted). A failing Seek returns with the mutex locked and blocks every later call (C50_block_refuted). Short reads are passed on without the error io.ReaderAt demands (C50_short_refuted)."
  },
  {
   "property": "C51",
   "status": "partial",
   "theorems": [
    "C51_partial",
    "C51_refuted"
   ],
   "note": "proved for every source that reports io.EOF on short reads (every file below 16 MiB); REFUTED at the 16 MiB limit of the reader, where the uint32 sum wraps and 4 GB are handed out without an error"
  },
  {
   "property": "C52",
   "status": "partial",
   "theorems": [
    "C52_text_partial",
    "C52_file_partial",
    "C52_colour_refuted",
    "C52_empty_refuted",
    "C52_segments_refuted"
   ],
   "note": "A one-segment layer keeps its string (and font, size) through WriteText/parseTextData and through whole files exactly when every character is printable; the colour always comes back as grey 0, an empty string is lost, and Encode panics on two or more segments or a nil colour. Missing part of the statement is false of the code; XML, strconv float and unicode tables are parameters."
  },
  {
   "property": "C53",
   "status": "partial",
   "theorems": [
    "C53_masked_round_trip_partial",
    "C53_masked_round_trip_refuted"
   ],
   "note": "REFUTED for masked layers away from the origin and for DecodeCompressed (see C32_same_pixels_refuted). Proved for a single masked layer at the origin through Decode."
  },
  {
   "property": "C54",
   "status": "partial",
   "theorems": [
    "C54_colour_space_partial",
    "C54_colour_space_refuted",
    "C54_wide_refuted"
   ],
   "note": "REFUTED: translucent grey and translucent palette pixels change, and opaque 16 bit palette entries (looked up by their low bytes). Proved: NRGBA exact, opaque grey exact, opaque palette entries exact, alpha always kept for grey."
  },
  {
   "property": "C55",
   "status": "proved",
   "theorems": [
    "C55_linked"
   ],
   "note": "For every image Encode accepts: one stack.xml, its n-th <layer> has exactly one src, data/n.png (decimal numeral specified separately), exactly one member has that name and holds the PNG of the n-th leaf in document order."
  },
  {
   "property": "C56",
   "status": "partial",
   "theorems": [
    "C56_exact",
    "C56_roundtrip_partial",
    "C56_opacity_refuted",
    "C56_hidden_refuted",
    "C56_negative_refuted",
    "C56_corner_refuted",
    "C56_refuted"
   ],
   "note": "C56_exact describes what is read back for every layered image. The tree is reproduced exactly for opaque layers with non-negative offsets, groups at (0,0), canvas at (0,0) (C56_roundtrip_partial). The full statement is false of the code: opacity is written as a visibility attribute and lost, a hidden translucent layer becomes visible, negative offsets and group offsets are lost, a canvas not starting at (0,0) clips its layers."
  },
  {
   "property": "C57",
   "status": "partial",
   "theorems": [
    "C57_config_partial",
    "C57_refuted"
   ],
   "note": "Refuted: Decode rejects (unexpected EOF) the file written for every image that is not layered. What holds: DecodeConfig accepts every file Encode writes and reports the size."
  },
  {
   "property": "C58",
   "status": "proved",
   "theorems": [
    "C58_unknown",
    "oraDecode_fuel"
   ],
   "note": "Any number of whole unknown elements (any content) and other tokens added anywhere inside the root element leave the result of Decode unchanged, errors included."
  },
  {
   "property": "C59",
   "status": "proved",
   "theorems": [
    "C59_mime",
    "C59_missing",
    "C59_missing_err",
    "C59_config",
    "C59_size",
    "C59_root",
    "C59_agree"
   ],
   "note": "C59_config is an equivalence: DecodeConfig reports (w,h) exactly for archives with right mimetype members (if any), an openable stack.xml and an <image> root declaring w and h. A missing mimetype member is accepted and negative sizes are reported as declared."
  },
  {
   "property": "C60",
   "status": "partial",
   "theorems": [
    "C60_fits",
    "C60_aspect",
    "C60_nonempty_partial",
    "C60_empty_refuted",
    "C60_at_exact",
    "C60_at_refuted"
   ],
   "note": "At most 256x256 and aspect ratio are proved (float64 rounding included). Refuted: an image more than 256 times longer than wide gives an empty thumbnail and Encode fails; the colour shown does not depend on y and is taken from a wrongly scaled point."
  },
  {
   "property": "C61",
   "status": "proved",
   "theorems": [
    "C61_names",
    "C61_modes"
   ],
   "note": "Both tables and the whole Encode/Decode round trip: every layer of every layered image keeps a nameable mode, others become Normal."
  },
  {
   "property": "C62",
   "status": "partial",
   "theorems": [
    "C62_steps",
    "C62_ends_partial",
    "C62_panics",
    "C62_answers_partial",
    "C62_refuted"
   ],
   "note": "False of the code: (a ?) makes the tokeniser run for ever and (text) panics, also through Decode. Proved: the parser stops on data whose unquoted part has only tag, name and number characters; panics are exactly the short text/color-rgb tags; with neither it answers."
  },
  {
   "property": "C63",
   "status": "proved",
   "theorems": [
    "C63_agree",
    "C63_values"
   ],
   "note": "ReadPaths and SkipPaths agree on every input without an error; regular path lists are read as their meaning."
  },
  {
   "property": "C64",
   "status": "partial",
   "theorems": [
    "C64_partial",
    "C64_refuted",
    "C64_strokes",
    "C64_stroke_refused",
    "C64_parasite"
   ],
   "note": "False of the code: ReadVectors indexes the empty slice vs.paths and panics on every property with a path. C64_partial characterises exactly when it returns; the inner readers of strokes and parasites, which it never reaches, are right."
  },
  {
   "property": "C65",
   "status": "partial",
   "theorems": [
    "C65_partial",
    "C65_list_partial",
    "C65_channel",
    "C65_refuted"
   ],
   "note": "False for the floating selection of files with eight-byte pointers (4 bytes are skipped) and for declared lengths that differ from the usual. Every other layer property, every list of such, and every channel list is framed."
  },
  {
   "property": "C66",
   "status": "proved",
   "theorems": [
    "C66_image",
    "C66_layer"
   ],
   "note": "For files below 16 MiB (newReader's limit). The malformed part may be any of those listed in S_Accept.v, behind any well-framed properties (C45, C65 say which are) and beside any other layers. Offsets of 2^63 and over are left out: Goto ignores them."
  },
  {
   "property": "C67",
   "status": "partial",
   "theorems": [
    "C67_partial",
    "C67_other_types",
    "C67_refuted"
   ],
   "note": "Proved for RGB images. REFUTED for greyscale and indexed ones: their layers' modes are read as Normal whatever their number, but for 2 (Behind); C67_other_types: everything else is right there. The float opacity (property 33) is taken as a given conversion of 32 bits to a byte; C79 is about that conversion."
  },
  {
   "property": "C68",
   "status": "partial",
   "theorems": [
    "C68_total",
    "C68_partial",
    "C68_lost",
    "C68_refuted",
    "C68_numbers"
   ],
   "note": "String is total and names the first 28 modes. REFUTED for the 14 modes from ColorErase to PassThrough: all print as Normal."
  },
  {
   "property": "C69",
   "status": "proved",
   "theorems": [
    "C69_luma",
    "C69_neutral",
    "C69_monotone"
   ],
   "note": ""
  },
  {
   "property": "C70",
   "status": "partial",
   "theorems": [
    "C70_plain",
    "C70_styles",
    "C70_refused",
    "C70_colour_refuted"
   ],
   "note": "C70_styles: styles and order of all pieces of any element tree, from the bytes of the parasite; C70_refused: unreadable attributes and broken markup. The layer's colour is false of the code (C70_colour_refuted): the colour tag is used only when it does not have three components. encoding/xml gives the tokens (parameter tl_xml)."
  },
  {
   "property": "C71",
   "status": "partial",
   "theorems": [
    "C71_reads",
    "C71_only",
    "C71_refuses",
    "C71_refuted"
   ],
   "note": "Sound and complete for the grammar of S_Parasite.v; that only complete documents are accepted is false: a tag broken off by a zero byte is dropped silently (C71_refuted), and C71_only says that this is the only exception."
  },
  {
   "property": "C72",
   "status": "proved",
   "theorems": [
    "C72_string",
    "C72_kept"
   ],
   "note": "From the bytes of the parasite; C72_kept relates it to the encoder for one segment."
  },
  {
   "property": "C73",
   "status": "proved",
   "theorems": [
    "C73_quoted"
   ],
   "note": "The code has no caller for quoteWriter."
  },
  {
   "property": "C74",
   "status": "proved",
   "theorems": [
    "C74_straight"
   ],
   "note": "About the colour conversion converted of S_Trip.v, which C35 and C36 prove to be what the file holds."
  },
  {
   "property": "C75",
   "status": "proved",
   "theorems": [
    "C75_kinds"
   ],
   "note": "For run-length coded data (compression 1); the theorem also says what At shows outside the bounds."
  },
  {
   "property": "C76",
   "status": "partial",
   "theorems": [
    "C76_markup_partial",
    "C76_refuted",
    "C76_font_refuted"
   ],
   "note": "Partial because the code violates the statement. Proved for the font Sans: the tags, their nesting, the escaped text and the style read back from them. Any other font is written in bare quotes: C76_font_refuted shows for every such segment that the string ends in the middle of the font's tag, so font, style and text are lost. For Sans C76_refuted shows for every segment that the string ends at the quote before the text, so the text is lost."
  },
  {
   "property": "C77",
   "status": "partial",
   "theorems": [
    "C77_planar",
    "C77_one_byte_partial",
    "C77_refuted"
   ],
   "note": "True for grey and indexed layers (C77_one_byte_partial). False of the code for the other types: uncompressed tiles are read as planes (C77_planar), so C77_refuted gives for every such layer exactly which bytes each pixel is shown with."
  },
  {
   "property": "C78",
   "status": "partial",
   "theorems": [
    "C78_spelled",
    "C78_refuted"
   ],
   "note": "The first half is proved (C78_spelled). The second is false of the code: quotedString does not undo the escapes that %q writes, so C78_refuted gives for every unprintable text a different one that is read back identically."
  },
  {
   "property": "C79",
   "status": "partial",
   "theorems": [
    "C79_rounds_down",
    "C79_monotone",
    "C79_bytes_kept",
    "C79_layer",
    "C79_refuted"
   ],
   "note": "Proved for numbers from 0 to 1 (C79_layer for RGB images). The last sentence is false of the code: C79_refuted reads a layer with opacity NaN without an error, whatever the implementation makes of it."
  },
  {
   "property": "C80",
   "status": "partial",
   "theorems": [
    "C80_partial",
    "C80_masks",
    "C80_untaken",
    "C80_group_refuted",
    "C80_moved_refuted"
   ],
   "note": "For every file as described (S_Whole.file_of) the decoder returns the described image, if no group has a mask and the masked layers are at the origin (or empty) and Decode (not DecodeCompressed) is used for them, and with the modes C67 says are read. Masks are characterised completely: if all masks are so placed the image is decoded without the masks of its groups (C80_masks), otherwise the file is never decoded (C80_untaken). So the statement is false of files with masks of groups or masked layers elsewhere."
  },
  {
   "property": "C81",
   "status": "partial",
   "theorems": [
    "C81_front",
    "C81_empty",
    "C81_unseen",
    "C81_grey_file",
    "C81_refuted",
    "C81_hidden_refuted"
   ],
   "note": "Which model an image has is proved for all images, and that unseen layers only change the model (unless they make it a palette image). REFUTED: the model does not describe the colours shown; hidden palette layers change the picture; universal: whatever is behind a grey front layer is stored grey."
  },
  {
   "property": "C82",
   "status": "partial",
   "theorems": [
    "C82_start_partial",
    "C82_stream_refuted",
    "C82_second_refuted",
    "C82_adapter"
   ],
   "note": "Proved for readers at position 0 that are ReaderAt or ReadSeeker. REFUTED elsewhere: GetReaderAt forgets the position, so for every image followed by another image.Decode at the second returns the first; a reader that is neither is refused."
  },
  {
   "property": "C83",
   "status": "partial",
   "theorems": [
    "C83_partial",
    "C83_described",
    "C83_back",
    "C83_moved_refuted",
    "C83_plain_refuted",
    "C83_luminance_refuted",
    "C83_unnumbered_refuted"
   ],
   "note": "Partial because the code violates the statement. Proved for layered images whose canvas starts at (0,0) and whose modes have a number other than Luminance: the bytes stored are a file of the format (version 3, canvas, base type, colour map) describing exactly these layers. Missing (and refuted): canvas starting elsewhere (described at unshifted coordinates, C83_described says exactly what), images that are not layered (C83_plain_refuted, every one with a pixel), Luminance (C83_luminance_refuted), modes without a number (C83_unnumbered_refuted). Files of 16 MiB and more are left out (C42)."
  },
  {
   "property": "C84",
   "status": "partial",
   "theorems": [
    "C84_partial",
    "C84_calls",
    "C84_small_refuted",
    "C84_refuted"
   ],
   "note": "Partial because the code violates the statement: ora.Encode drops the error of zw.Close(), which flushes up to 4096 buffered bytes and writes the archive's directory (C84_refuted: for every image that can be encoded there is a destination that loses the end and nil is returned; C84_small_refuted: an archive of at most 4096 bytes before Close is reported as written to any destination, even one that takes nothing). Proved: no write follows a failed one; what was taken is a prefix; errors returned are those of the failed write or of the last library call; with nil, all but the last 4096 bytes of the calls before Close were taken, and the whole archive if no write in Close failed."
  },
  {
   "property": "C85",
   "status": "proved",
   "theorems": [
    "C85_extended",
    "C85_truncated",
    "C85_refused",
    "C85_config"
   ],
   "note": "All sources modelled by M_Reader (byte lists; a bytes.Reader-like ReaderAt); sources that fail with other errors at chosen offsets are not modelled."
  },
  {
   "property": "C86",
   "status": "partial",
   "theorems": [
    "C86_partial",
    "C86_grey_refuted",
    "C86_overhang_refuted"
   ],
   "note": "C86_partial is about every described file whose layers are neat (not empty, inside their parent, not in Luminance mode, texts that can be written and read, pixels with a colour and not translucent unless RGB) on a canvas touched at the left and upper edge: Encode returns nil and the file it writes (below 16 MiB) is loaded as the same image. C86_grey_refuted: grey 100 at alpha 128 becomes 50. C86_overhang_refuted: a layer reaching out of the canvas is saved without an error in a file that Decode refuses."
  },
  {
   "property": "C87",
   "status": "partial",
   "theorems": [
    "C87_partial",
    "C87_wf_partial",
    "C87_texts_partial",
    "C87_reads",
    "C87_loaded_partial",
    "C87_refuted",
    "C87_index_refuted"
   ],
   "note": "REFUTED: a text layer of several segments, or whose segment has no colour, panics (C87_refuted); an indexed file with an index outside its colour map is loaded by Decode, but reading that pixel or saving the image panics (C87_index_refuted). C87_partial: for every image whose pixels can be read, and every destination, Encode panics exactly if a text (not behind a mask) cannot be written; C87_texts_partial: those are the texts that are not one segment with a colour; C87_reads: without a panic every pixel of every picture has been read; C87_loaded_partial: an image loaded from a described file can be read everywhere if the indices are in the colour map, and is saved without a panic exactly if so and its texts can be written."
  },
  {
   "property": "C88",
   "status": "partial",
   "theorems": [
    "C88_tree",
    "C88_partial",
    "C88_negative_refuted",
    "C88_stack_refuted",
    "C88_offset_refuted"
   ],
   "note": "The tree with all attributes is proved for every document (C88_tree). Positions hold for tidy documents (C88_partial) and are refuted otherwise: a layer with a negative offset is shown from its own corner, so none of its points is right (every such layer); a stack without offset whose content does not touch the left and top edge of the canvas is displaced (every such stack), because the group gets the bounds of its content and the offsets stay inside too; offsets of stacks are wrong under either reading (from the canvas or from the stack around)."
  },
  {
   "property": "C89",
   "status": "proved",
   "theorems": [
    "C89_shows",
    "C89_saves",
    "C89_loaded"
   ],
   "note": "For files without masks: on a file with a mask DecodeCompressed panics (C37)."
  },
  {
   "property": "C90",
   "status": "partial",
   "theorems": [
    "C90_partial",
    "C90_loaded_partial",
    "C90_corner_refuted",
    "C90_mode_refuted",
    "C90_grey_refuted",
    "C90_palette_refuted"
   ],
   "note": "Partial because the code violates the statement. Proved for files below 16 MiB for images of 8 bit colours, of opaque or black greys, and of the opaque colours of an AlphaPalette, whose pictures start at (0,0), whose layers lie in the canvas and whose lowest layer is in mode Normal or Dissolve; also for what was loaded from a described file. Fails otherwise, as the code is: pictures are drawn from (0,0) but saved from their corner (C90_corner_refuted), the lowest layer's mode is lost (C90_mode_refuted), translucent greys become darker (C90_grey_refuted), faint layers of color.Palette images appear (C90_palette_refuted)."
  },
  {
   "property": "C91",
   "status": "proved",
   "theorems": [
    "C91"
   ],
   "note": "Relative to the model of archive/zip, encoding/xml and image decoding as views of members (M_Ora). What is read is C88."
  },
  {
   "property": "C92",
   "status": "partial",
   "theorems": [
    "C92_partial",
    "C92_again_partial",
    "C92_opacity_refuted",
    "C92_corner_refuted",
    "C92_mode_refuted"
   ],
   "note": "Partial because the code violates the statement. Proved (equal image_At at every point) for images of colours (RGB, NRGBA, also as texts or behind masks) that C56 says are carried through and whose pictures start at (0,0), under the contract of image/png in S_OraLooks.png_ok. Refuted: every image of one translucent layer is loaded as another (C92_opacity_refuted), pictures are drawn from (0,0) but saved from their corner (C92_corner_refuted), modes without a name become Normal (C92_mode_refuted). Greys and palettes are left out."
  },
  {
   "property": "C93",
   "status": "partial",
   "theorems": [
    "C93_min",
    "C93_max",
    "C93_none",
    "C93_mid_partial",
    "C93_mid_refuted"
   ],
   "note": "Partial because the code violates the statement. Min and Max are proved for all lists; Mid where least + greatest is below 65536; for every other list Mid is below every argument (C93_mid_refuted). Nothing in the repository calls Mid."
  },
  {
   "property": "C94",
   "status": "proved",
   "theorems": [
    "C94_loads",
    "C94_size_lost"
   ],
   "note": "An equivalence, for decodeImage up to 16 MiB (the reader's limit, C42) and for decodeImageFrom up to 4 GiB. S_Loads.storable asks only that names, offsets, sizes and indices fit the fields of the format. C94_size_lost: one layer that is not of its picture's size is enough that the saved file is never loaded, though Encode returns nil."
  },
  {
   "property": "C95",
   "status": "partial",
   "theorems": [
    "C95_partial",
    "C95_modes",
    "C95_opacity_refuted",
    "C95_corner_refuted"
   ],
   "note": "Partial because the code violates the statement. C95_partial is about every document of opaque layers on the canvas that reaches the upper left edges and whose stacks have no offsets. C95_modes: composition modes are kept for every archive that is loaded. C95_opacity_refuted and C95_corner_refuted: for every document with a translucent layer in the outermost stack, and every tidy document (C88) not reaching the left or the upper edge, the image changes."
  }
 ]
}
