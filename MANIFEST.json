{
 "claims": [
  {
   "property": "C01",
   "status": "proved",
   "theorems": [
    "C01_triangulate_dissects",
    "C01_triangulate_boundary",
    "C01_triangulate_small"
   ],
   "note": "Any scalar behaviour (hence float32)."
  },
  {
   "property": "C02",
   "status": "proved",
   "theorems": [
    "C02_apply_mul",
    "C02_mul_monoid",
    "C02_inverse",
    "C02_inverse_mul",
    "C02_det_mul",
    "C02_transposed"
   ],
   "note": "Exact real arithmetic."
  },
  {
   "property": "C03",
   "status": "proved",
   "theorems": [
    "C03_rotation_isometry",
    "C03_product",
    "C03_inverse",
    "C03_matrix",
    "C03_matrix_product",
    "C03_trs",
    "C03_axis_sense"
   ],
   "note": "Exact real arithmetic."
  },
  {
   "property": "C04",
   "status": "proved",
   "theorems": [
    "C04_decompose_recompose",
    "C04_decompose_positive"
   ],
   "note": "Exact real arithmetic; all sign patterns of the scale."
  },
  {
   "property": "C05",
   "status": "proved",
   "theorems": [
    "C05_round_trip",
    "C05_round_trip_pole",
    "C05_to_quaternion"
   ],
   "note": "Exact real arithmetic; all four orders. The guard band (|sin of middle angle| between 1-1e-8 and 1) is excluded by the claim; the pole itself is covered."
  },
  {
   "property": "C06",
   "status": "partial",
   "theorems": [
    "C06_set_get_rotation_refuted",
    "C06_set_get_order",
    "C06_set_get_axis_x_partial",
    "C06_set_get_axis_y_partial",
    "C06_set_get_axis_z_partial",
    "C06_local_transform_partial"
   ],
   "note": "Refuted: SetRotation extracts ZXY angles but GetRotation composes them in YXZ order. Single-axis rotations survive."
  },
  {
   "property": "C07",
   "status": "proved",
   "theorems": [
    "C07_apply_transform_compose",
    "C07_apply_transform_effect",
    "C07_normals_stay_perpendicular"
   ],
   "note": "Exact real arithmetic for composition and normals; the effect statement holds for any arithmetic."
  },
  {
   "property": "C08",
   "status": "proved",
   "theorems": [
    "C08_flip_corners",
    "C08_flip_reverses",
    "C08_flip_involution",
    "C08_triangulate_object"
   ],
   "note": "Holds for any scalar arithmetic (the geometric tests are arbitrary)."
  },
  {
   "property": "C09",
   "status": "proved",
   "theorems": [
    "C09_fix_names"
   ],
   "note": "Both lists; termination of the suffix search included."
  },
  {
   "property": "C10",
   "status": "partial",
   "theorems": [
    "C10_kept_or_numbered",
    "C10_nonzero",
    "C10_unique_refuted",
    "C10_unique_partial",
    "C10_unique_condition"
   ],
   "note": "Refuted: ids are not unique when an explicit id equals position+1 of an object without id. Non-zero and kept hold for all documents; a necessary and sufficient condition for uniqueness is proved."
  },
  {
   "property": "C100",
   "status": "partial",
   "theorems": [
    "C100_name_refuted",
    "C100_percent_refuted",
    "C100_target_refuted",
    "C100_bones_partial"
   ],
   "note": "Refuted: bones keep the type in their names, weights of 1 become one percent, and bones are lost when one model is converted. Proved: bones are the models of the skeleton, once each, numbered after their parents, with positions and the numbers that deformers give, for documents whose models form a tree."
  },
  {
   "property": "C101",
   "status": "partial",
   "theorems": [
    "C101_texture_refuted",
    "C101_glow_refuted",
    "C101_name_refuted",
    "C101_materials_partial"
   ],
   "note": "Refuted: the texture is the first one connected to any property, of light colours only the red part counts, names keep the type. Proved: order, diffuse colour, opacity, factors, grey light colours, and the texture of materials with at most one."
  },
  {
   "property": "C102",
   "status": "partial",
   "theorems": [
    "C102_pivot_refuted",
    "C102_order_refuted",
    "C102_unit_refuted",
    "C102_model_partial",
    "C102_axes"
   ],
   "note": "Refuted: pivots, orders of rotation other than XYZ, and units are ignored. Proved over exact reals: the formula for models without these, and the axes."
  },
  {
   "property": "C103",
   "status": "partial",
   "theorems": [
    "C103_absolute_refuted",
    "C103_textures_partial",
    "C103_document_partial",
    "C103_present"
   ],
   "note": "Refuted: pictures that are encoded again are looked for below the directory of the document even if their path is absolute. Proved for relative names: contents, types, names, sharing, all slots and extensions."
  },
  {
   "property": "C104",
   "status": "partial",
   "theorems": [
    "C104_height_refuted",
    "C104_copied_refuted",
    "C104_scaled",
    "C104_limit_partial"
   ],
   "note": "Refuted: the limit is for the width only, and does not hold for PNG and JPEG files that are copied. Proved over exact rationals: width is the scaled width or the limit exactly, height in proportion, pictures not higher than wide keep within the limit."
  },
  {
   "property": "C105",
   "status": "partial",
   "theorems": [
    "C105_whole_refuted",
    "C105_palette_refuted",
    "C105_shared_refuted",
    "C105_edge_refuted",
    "C105_only",
    "C105_found_partial"
   ],
   "note": "Refuted: nothing is looked at if faces show the whole picture, palettes and 16 bit pictures count as opaque, vertices shared with another material and the last row and column do not count. Proved: blended only if colour or some pixel is transparent; pixels inside of the rectangle around the faces are found if vertices have one coordinate and one material."
  },
  {
   "property": "C106",
   "status": "partial",
   "theorems": [
    "C106_place_refuted",
    "C106_lost_refuted",
    "C106_crash_refuted",
    "C106_twice_refuted",
    "C106_offset",
    "C106_same_partial",
    "C106_without",
    "C106_total",
    "C106_parents",
    "C106_unmoved"
   ],
   "note": "Refuted: copies are displaced unless the scale is 1 or the first copy is at the origin; copies with fewer materials lose faces, with more materials the export crashes, and copies with a hidden material are moved twice. Proved: the displacement exactly, for all documents whose copies tell the same faces apart; without the option nodes are those of C39 to C44. Normals and morph targets are not part of what is compared."
  },
  {
   "property": "C107",
   "status": "partial",
   "theorems": [
    "C107_cone_refuted",
    "C107_area_refuted",
    "C107_off_refuted",
    "C107_renderer_refuted",
    "C107_mesh_refuted",
    "C107_ignored_refuted",
    "C107_scene",
    "C107_params_partial",
    "C107_others",
    "C107_meshes"
   ],
   "note": "Refuted: cones are written where glTF does not read them, and in degrees; area lights become spot lights; lights that are switched off shine; lights are lost with the renderer of their object or without the hierarchy of objects; a mesh with a light is moved twice. Proved: numbers, places and directions for all scenes, parameters of directional and point lights."
  },
  {
   "property": "C108",
   "status": "partial",
   "theorems": [
    "C108_elsewhere_refuted",
    "C108_picture_refuted",
    "C108_absolute_refuted",
    "C108_encoded_refuted",
    "C108_buffers_refuted",
    "C108_names_refuted",
    "C108_extension_refuted",
    "C108_here_partial",
    "C108_self_partial",
    "C108_kept",
    "C108_names_partial",
    "C108_extension_partial"
   ],
   "note": "Refuted: unless the document is in the working directory the wrong place is always searched; escaped addresses are not found; several buffers are not joined; a new name of a buffer may be taken; extensions stay in meshes, textures, images, buffers and the list of used ones. Proved: documents in the working directory are packed exactly; existing data is kept for all directories."
  },
  {
   "property": "C109",
   "status": "partial",
   "theorems": [
    "C109_rotation_refuted",
    "C109_group_refuted",
    "C109_mixed_refuted",
    "C109_twice_refuted",
    "C109_lost_refuted",
    "C109_bodies",
    "C109_nodes",
    "C109_colliders"
   ],
   "note": "Refuted: shapes are not turned; bodies after the first on a node lose group and mask; a moving body beside a fixed one becomes fixed and a collider; a body with bone and object is exported twice; bodies without exported node are lost. Proved: which bodies a node has, with the places in the world, sizes and masses of all shapes, and exactly which colliders an avatar gets."
  },
  {
   "property": "C11",
   "status": "partial",
   "theorems": [
    "C11_world_transforms_refuted",
    "C11_actual_parent",
    "C11_flat_partial"
   ],
   "note": "Refuted: the parent is taken to be the nearest preceding object of greater depth (comparison inverted). What it computes is proved for all documents; correct for documents without nesting."
  },
  {
   "property": "C110",
   "status": "partial",
   "theorems": [
    "C110_physics_refuted",
    "C110_silent_refuted",
    "C110_folder_refuted",
    "C110_case_refuted",
    "C110_morph_refuted",
    "C110_kept_partial",
    "C110_physics_written"
   ],
   "note": "Refuted: physics is never read back; failing to write the .mqx file is not reported; archives with a folder or an extension in capitals lose plugins or are not opened; new object names are not given to morphs. Proved: text, bones and morphs of every document are loaded as they were saved, in both forms, and nothing else is written. What the file says about physics is proved field by field (C110_physics_written)."
  },
  {
   "property": "C111",
   "status": "partial",
   "theorems": [
    "C111_refuted",
    "C111_text_refuted",
    "C111_properties_refuted",
    "C111_zero_refuted",
    "C111_twice_refuted",
    "C111_loop_refuted",
    "C111_links_partial",
    "C111_types",
    "C111_materials"
   ],
   "note": "Refuted: text files of version 6100 have an empty scene; properties of version 6100 are not read; an object without a number takes the place of the scene; of two objects with one number the first is not connected; a connection without numbers connects the scene with itself, and the conversion does not end. Proved: with different numbers (names in version 6100) the references are exactly those that the connections say, in their order; types and materials are right in every file."
  },
  {
   "property": "C112",
   "status": "partial",
   "theorems": [
    "C112_refuted",
    "C112_materials_refuted",
    "C112_target_refuted",
    "C112_bones_refuted",
    "C112_old_refuted",
    "C112_weights_refuted",
    "C112_kept_partial",
    "C112_objects_partial"
   ],
   "note": "Refuted: materials and bones get other names, models can no longer be chosen by name, files of version 6100 are empty, and bones without weights lose the weight 0 that the loader gives them (that strings with quotation marks, raw data and numbers with exponents cannot be loaded at all is C28). Proved: every tree of another version that has a text, with whole numbers where whole numbers are read and without empty arrays, is loaded as the same document up to the order of name and class; names of objects are the same."
  },
  {
   "property": "C113",
   "status": "partial",
   "theorems": [
    "C113_unnamed_refuted",
    "C113_nested_refuted",
    "C113_text_refuted",
    "C113_suffix_refuted",
    "C113_material_refuted",
    "C113_below_refuted",
    "C113_shape_refuted",
    "C113_bones_refuted",
    "C113_key_refuted",
    "C113_collision_refuted",
    "C113_empty_refuted",
    "C113_memory",
    "C113_total_partial",
    "C113_named_partial",
    "C113_copies_partial"
   ],
   "note": "Refuted: without a name in the meta file everything in the FBX file is imported, nested models and models of text files are not found, .FBX is not read, materials are those of the object only for some numberings, shapes become visible, bones are replaced, and keys can be shared by objects whose materials differ in kind. Proved: the memory of the last file cannot be noticed, sound files are imported, the objects stand for the first model of the name and what is below it, placed, deep and dressed as the object says, and two imports with the same key (identifiers of equal length) are the same mesh in two places."
  },
  {
   "property": "C114",
   "status": "partial",
   "theorems": [
    "C114_stale_refuted",
    "C114_cut_refuted",
    "C114_output_refuted",
    "C114_underscore_refuted",
    "C114_panic_refuted",
    "C114_saved_partial",
    "C114_apart_partial",
    "C114_base_partial"
   ],
   "note": "Refuted: files that exist are kept even if the texture changed or was copied only in part; the default output is in another directory than the one the references are relative to; identifiers with an underscore can collide; a directory named like a scene panics. Proved: for fresh places and identifiers without underscore every name leads to the content of its asset, unreadable assets have neither name nor file, the rest of the disk stays; different identifiers have different files; the base directory of main is that of the loader."
  },
  {
   "property": "C115",
   "status": "partial",
   "theorems": [
    "C115_again_refuted",
    "C115_unknown_refuted",
    "C115_crash_refuted",
    "C115_nested_refuted",
    "C115_beside_refuted",
    "C115_twice_refuted",
    "C115_written_partial",
    "C115_kept",
    "C115_total_partial",
    "C115_choice",
    "C115_parts_partial",
    "C115_places"
   ],
   "note": "Refuted: saving a .vrm again without configuration erases its metadata and bones; an unknown name is an empty configuration; a configuration without material settings crashes with the presets of the program; presets of presets are ignored, presets are not looked for beside the configuration; spring bones are doubled by a second run. Proved: with a configuration and preset that load, metadata, bones, material properties, used extensions and reported bones are exactly as said; morphs, springs, colliders and first person bone are kept; no crash under stated conditions; which configuration is chosen."
  },
  {
   "property": "C116",
   "status": "partial",
   "theorems": [
    "C116_place_refuted",
    "C116_strip_refuted",
    "C116_lines_refuted",
    "C116_outside_refuted",
    "C116_default_refuted",
    "C116_embedded_refuted",
    "C116_source_refuted",
    "C116_look_partial",
    "C116_textures",
    "C116_crash"
   ],
   "note": "Refuted: matrices of nodes and modes of primitives are ignored (everything at the origin, strips lose triangles, lines become triangles), nodes outside the scene are shown, the default material becomes the first material, embedded pictures are lost, a texture without source crashes. Proved: for meshes of triangles on shared positions, with materials, in nodes of the scene whose points are not moved, exactly the triangles of the scene are shown; textures are the URIs of the images of the materials; which textures crash. Skinned meshes are taken in their node."
  },
  {
   "property": "C117",
   "status": "partial",
   "theorems": [
    "C117_untyped_refuted",
    "C117_second_refuted",
    "C117_broken_refuted",
    "C117_glow_refuted",
    "C117_opaque_refuted",
    "C117_load_partial",
    "C117_look_partial",
    "C117_textures_partial",
    "C117_invalid",
    "C117_crash",
    "C117_crash_refuted"
   ],
   "note": "Refuted: an untyped document is taken for an empty material, all references into one file get its first material, one that cannot be decoded is replaced by the next, emission that is switched off shines, opaque materials are transparent. Proved: the first material of a file as Unity writes it is found; name, colour, emission and tiling are those of the first map with the key; the textures lead to the contents of their assets. The YAML decoder is an arbitrary function."
  },
  {
   "property": "C118",
   "status": "partial",
   "theorems": [
    "C118_escape_refuted",
    "C118_kept_refuted",
    "C118_end_refuted",
    "C118_chunk_refuted",
    "C118_late_refuted",
    "C118_detected_partial",
    "C118_own_partial",
    "C118_shift_jis",
    "C118_utf8_partial",
    "C118_literals"
   ],
   "note": "Refuted: in UTF-8 files a backslash is an escape, so that tex\\eye.png makes the whole file fail, tex\\new.png keeps its backslash and dir\\ swallows what follows; only the first 128 bytes of the first Read are looked at. Proved: exactly what is looked at, files of this program are recognised if the first Read returns at least 54 bytes, names in Shift-JIS files are read with slashes without an error, names without backslash are read in UTF-8 files."
  },
  {
   "property": "C119",
   "status": "partial",
   "theorems": [
    "C119_same_refuted",
    "C119_shared_refuted",
    "C119_embedded_refuted",
    "C119_picture_refuted",
    "C119_own_refuted",
    "C119_saved_partial",
    "C119_frame",
    "C119_source_partial",
    "C119_written",
    "C119_empty_refuted"
   ],
   "note": "Refuted: converting into the directory of the input overwrites the input's own .bin with the scaled data; outputs of different inputs with equal buffer names share one file; data: buffers keep the old data whatever -scale says; images are not copied. Proved: what is saved is what is loaded when the buffers are separate files; only the document and its buffer files are written; an input in an unrelated directory is unchanged."
  },
  {
   "property": "C12",
   "status": "partial",
   "theorems": [
    "C12_clone_contents",
    "C12_independent",
    "C12_full_copy_refuted"
   ],
   "note": "Refuted: face ids and normals are dropped. The rest of the contents and independence under arbitrary interleaved edits are proved over an explicit heap."
  },
  {
   "property": "C120",
   "status": "partial",
   "theorems": [
    "C120_gltf_refuted",
    "C120_fbx_refuted",
    "C120_scale_refuted",
    "C120_fbx_scale_refuted",
    "C120_metre_refuted",
    "C120_motion_refuted",
    "C120_size_partial",
    "C120_scale_partial"
   ],
   "note": "Refuted: glTF to MQO or MMD gives a thousandth of the size, FBX ignores UnitScaleFactor (a tenth for centimetres), -scale k of MMD models gives k/80 of the default size, FBX to FBX ignores all scales, motions are moved for scale 80 only. Proved: from MQO and MMD into every format all lengths in millimetres and the orientation are kept; -scale k multiplies lengths by k from MQO and between glTF formats."
  },
  {
   "property": "C121",
   "status": "partial",
   "theorems": [
    "C121_memory_refuted",
    "C121_lists_refuted",
    "C121_order_refuted",
    "C121_moved_refuted",
    "C121_reloaded_partial",
    "C121_ids",
    "C121_materials",
    "C121_parent",
    "C121_shared_refuted"
   ],
   "note": "Refuted: AddObject never lists materials and AddConnection never sets parents, so the document in memory differs from its file; an object connected before it is added becomes a loop at the scene in the file; a matrix that was asked for once stays when the model is moved. Proved: objects by id and references agree when objects are added before they are connected, ids are unique, and what the loaded document has as materials and parents."
  },
  {
   "property": "C122",
   "status": "partial",
   "theorems": [
    "C122_quote_refuted",
    "C122_backslash_refuted",
    "C122_trimmed_refuted",
    "C122_objects_refuted",
    "C122_names_partial",
    "C122_textures_partial",
    "C122_fails",
    "C122_any_name"
   ],
   "note": "Refuted: a quote or a backslash in a name makes the file unreadable, cuts the name off, or even makes further objects. Proved: exactly the insides of Go string literals that do not end in a quote come back, and exactly the texture names without quotes, line ends and NUL; names of glTF meshes are arbitrary. Invalid UTF-8 is not modelled."
  },
  {
   "property": "C123",
   "status": "partial",
   "theorems": [
    "C123_zero_refuted",
    "C123_unlit_refuted",
    "C123_color_refuted",
    "C123_numbers_partial",
    "C123_colors_partial",
    "C123_none",
    "C123_factors",
    "C123_used"
   ],
   "note": "Refuted: SpecularFactor 0 (Ior 0, AttenuationDistance 0) is left out and so means the default; metalness 0 with roughness 1 is exported unlit although Unlit is off; a colour of fewer than three numbers crashes. Proved for all materials: presence of extensions, numbers that are not zero or whose default is zero, colours, factors, ExtensionsUsed. Numbers are exact rationals."
  },
  {
   "property": "C124",
   "status": "partial",
   "theorems": [
    "C124_empty_refuted",
    "C124_wide_refuted",
    "C124_contents_partial",
    "C124_held",
    "C124_axes",
    "C124_axes_default"
   ],
   "note": "Refuted: an empty array of doubles or of 64 bit integers is read as one zero, and 64 bit indexes are cut to 32 bits. Proved for all files: everything else about geometries, deformers, materials, models and axes. Numbers are an arbitrary type; the local matrix is a parameter here (C102 has it)."
  },
  {
   "property": "C125",
   "status": "partial",
   "theorems": [
    "C125_archive_refuted",
    "C125_inputs_refuted",
    "C125_options_refuted",
    "C125_capitals_refuted",
    "C125_place_refuted",
    "C125_format_partial",
    "C125_supported",
    "C125_input_partial",
    "C125_motions",
    "C125_options"
   ],
   "note": "Refuted: archives are decided by the suffix .mqoz in small letters, whatever is asked for; further models and some motions are ignored silently; options have no effect from glTF to glTF and FBX to FBX; -format in capitals is unknown; scenes of packages are written below a directory that does not exist. Proved for all arguments: the format of everything else, that every supported pair is converted, the reader, motions and options on the way to glTF. That loading and saving succeed is assumed here."
  },
  {
   "property": "C126",
   "status": "partial",
   "theorems": [
    "C126_name_refuted",
    "C126_unit_refuted",
    "C126_drawn_partial",
    "C126_transformed_partial",
    "C126_normal_length"
   ],
   "note": "Refuted: a morph with the name of a mesh object takes the whole object out of the document; normals have length 1/k after scaling by k. Proved for all other models end to end (conversion, transform, export): every face that is not to be left out is drawn once, with material, order of corners, positions, texture coordinates up to eps, transformed normals, and joints with weights for vertices with at most four bones, listed once. Materials and bones are assumed to be those of the model in the same order (for bones see C66)."
  },
  {
   "property": "C127",
   "status": "partial",
   "theorems": [
    "C127_bare_refuted",
    "C127_name_refuted",
    "C127_drawn_partial",
    "C127_exported",
    "C127_transformed_partial"
   ],
   "note": "Refuted: documents without materials draw nothing; a shape with the name of a model takes the model out. Proved for all other documents end to end (conversion, transform, export): all polygons of converted models whose material layer gives an existing material are drawn, dissected, with places, texture coordinates up to eps, normals of a corner at the same vertex, and the name and colour of the material; and nothing else is drawn."
  },
  {
   "property": "C128",
   "status": "partial",
   "theorems": [
    "C128_concave_refuted",
    "C128_bare_refuted",
    "C128_name_refuted",
    "C128_drawn_partial",
    "C128_exported",
    "C128_transformed_partial"
   ],
   "note": "Refuted: polygons that are not convex are divided outside of themselves; documents without materials give no faces; a shape with the name of a model takes the model out. Proved for all other documents end to end (conversion, transform, PMX): the faces are exactly the pieces of all polygons of converted models whose material layer gives an existing material, with places, texture coordinates and the material by name."
  },
  {
   "property": "C129",
   "status": "partial",
   "theorems": [
    "C129_crash_refuted",
    "C129_sides_refuted",
    "C129_edge_refuted",
    "C129_read",
    "C129_crash",
    "C129_written_partial",
    "C129_back_partial",
    "C129_pmx_back_partial",
    "C129_light"
   ],
   "note": "Refuted: a texture number out of range crashes the conversion of PMX models; the conversion to PMX makes all materials one sided and drops the edge. Proved for all lists: PMX to MQO keeps name, colour, shininess, texture file, sides and edge switch and crashes exactly for texture numbers out of range; MQO to PMX keeps name, colour, shininess and texture file with valid texture numbers; both round trips keep these."
  },
  {
   "property": "C13",
   "status": "partial",
   "theorems": [
    "C13_vertex_index",
    "C13_assoc",
    "C13_negative_refuted"
   ],
   "note": "Refuted for negative ids (uid-1 is returned). All other ids are proved."
  },
  {
   "property": "C130",
   "status": "partial",
   "theorems": [
    "C130_all_refuted",
    "C130_power_refuted",
    "C130_name_refuted",
    "C130_colon_refuted",
    "C130_colors_partial",
    "C130_copies"
   ],
   "note": "Refuted: entries about all materials (-1) are dropped, only the colour is morphed, of two materials of one name the last is changed, and a morph a crashes if there is a morph a:b. Proved over the reals for models with distinct plain material names, morph names without colons and entries about single materials: the morphed colours are those of the PMX model for every value, everything else stays, no crash."
  },
  {
   "property": "C131",
   "status": "partial",
   "theorems": [
    "C131_chunk_refuted",
    "C131_word_refuted",
    "C131_nested_refuted",
    "C131_chunks_partial",
    "C131_block",
    "C131_items_partial",
    "C131_attributes_partial",
    "C131_no_include"
   ],
   "note": "Refuted: a known chunk inside of an unknown one is read, an argument with the name of an item is read as the item, brackets in the value of an unknown attribute spoil the next one. Proved for all documents: the text with ignorable tokens or thumbnails after every chunk is read as the document; blocks of any depth are skipped exactly; unknown items with blocks and unknown attributes without brackets change nothing."
  },
  {
   "property": "C132",
   "status": "partial",
   "theorems": [
    "C132_target_refuted",
    "C132_same_refuted",
    "C132_tip_refuted",
    "C132_gap_refuted",
    "C132_inherit_refuted",
    "C132_iks_partial",
    "C132_crash",
    "C132_chain_partial"
   ],
   "note": "Refuted: a target that does not exist panics, of two IKs with one target one is lost, the first bone cannot be a tip, links with gaps and inherited rotation give another chain. Proved for all models: the converter panics exactly for missing targets; with different targets every IK is kept with its names and length; without inherited rotation links along the parents give the same chain."
  },
  {
   "property": "C133",
   "status": "partial",
   "theorems": [
    "C133_bare_refuted",
    "C133_place_refuted",
    "C133_drawn_partial",
    "C133_count_partial",
    "C133_exported_partial",
    "C133_transformed_partial"
   ],
   "note": "Refuted: a scene without materials gives a model without faces, and the place of a node is lost. Proved for all scenes of triangle lists on shared positions whose nodes are in place and whose materials exist: faces and triangles correspond both ways with material, place and front, also with any transformation in between; the numbers are equal; the conversion succeeds."
  },
  {
   "property": "C134",
   "status": "partial",
   "theorems": [
    "C134_name_refuted",
    "C134_vertices_refuted",
    "C134_faces_partial",
    "C134_count_partial",
    "C134_total",
    "C134_place_partial"
   ],
   "note": "Refuted: a morph with the name of a mesh object takes its faces out of the model; vertices that no face uses are lost and the others are renumbered. Proved for all models of triangles whose faces are all covered by materials and without such a morph name: the faces of the two models correspond one to one with material, order of corners, place and texture coordinates; the materials are the same with those of material morphs after them; if the command enlarges by the inverse of the scale the places are equal; the conversion always succeeds."
  },
  {
   "property": "C135",
   "status": "partial",
   "theorems": [
    "C135_twice_refuted",
    "C135_skin_partial",
    "C135_exact_partial"
   ],
   "note": "Refuted: a vertex of a morph base that names a bone twice gets wrong weights (C35). Proved for all models of triangles without such vertices and without a morph that is named as a mesh object: each face is there once, its corners with the first four of their weights in the order of bones; over exact numbers a vertex with at most four bones has exactly its positive weights."
  },
  {
   "property": "C136",
   "status": "partial",
   "theorems": [
    "C136_z_refuted",
    "C136_name_refuted",
    "C136_uv_refuted",
    "C136_offsets_partial",
    "C136_sound_partial",
    "C136_exact_partial"
   ],
   "note": "Refuted: the z of the offsets is lost (C37); of two morphs with one name one is lost; a morph of texture coordinates comes back as a vertex morph that moves nothing. Proved for all models of triangles whose morphs have names of their own (none that of a mesh object) and only name vertices that faces use: x and y of all offsets are kept, at the same corners, and there are no other offsets; exact over the reals."
  },
  {
   "property": "C137",
   "status": "partial",
   "theorems": [
    "C137_tail_refuted",
    "C137_parent_refuted",
    "C137_inherit_refuted",
    "C137_bones_partial",
    "C137_tails_partial",
    "C137_exact",
    "C137_transformed"
   ],
   "note": "Refuted: tails are replaced by the last child or none; a bone that takes the rotation of a known bone gets that bone as parent; inherited rotation is lost. Proved for all bones whose parents are in range: same names, places and order, and every bone hangs on its parent, or on the known bone whose rotation it takes above the threshold; every tail is the last child or none; places are exact over the reals."
  },
  {
   "property": "C138",
   "status": "partial",
   "theorems": [
    "C138_mode_refuted",
    "C138_size_refuted",
    "C138_joints_refuted",
    "C138_free_refuted",
    "C138_bodies_partial",
    "C138_shapes",
    "C138_transformed",
    "C138_size_partial",
    "C138_joints_read"
   ],
   "note": "Refuted: every rigid body changes its mode, boxes get a negative depth, joints are lost, and a body without bone is tied to the first bone. Proved for all models: same bodies in the same order with name, group, mask, shape (sphere, box, capsule), rotation, mass, damping, restitution and friction, at the same place, and the same bone where it is in range; width and height are kept over the reals; every shape of a body becomes one rigid body, with different names; the joints reach the MQO document, between the same bodies."
  },
  {
   "property": "C139",
   "status": "proved",
   "theorems": [
    "C139_shown",
    "C139_fail",
    "C139_alone"
   ],
   "note": "Unconditional over all bones, nodes, motions and documents; C139_alone says under the conditions of C85 and C86 what the animation of a single motion is."
  },
  {
   "property": "C14",
   "status": "partial",
   "theorems": [
    "C14_total_and_frame",
    "C14_moves",
    "C14_base_vertex",
    "C14_value_0_1",
    "C14_material_crash",
    "C14_material_blend",
    "C14_no_crash_refuted",
    "C14_other_vertex",
    "C14_blend_value"
   ],
   "note": "Refuted: a morph material naming a missing material crashes (exactly then). Vertex part, frame and flag proved for all documents."
  },
  {
   "property": "C140",
   "status": "partial",
   "theorems": [
    "C140_prefab_refuted",
    "C140_endless_refuted",
    "C140_parent_partial",
    "C140_children_partial",
    "C140_world_partial",
    "C140_points_partial",
    "C140_instance",
    "C140_inside",
    "C140_components"
   ],
   "note": "Refuted: GetParent looks for the father only in the file of the transform, so the root of a prefab instance never has the parent whose child it is (C140_prefab_refuted, for every instance below a transform of the scene); if ids coincide it becomes its own parent and GetWorldMatrix does not end (C140_endless_refuted). Proved: within one file the parent is the named one and lists it, the world matrix is the product along the chain and (over exact reals) puts points where Unity does, with z mirrored; inside of instances, roots apart, parents are those of the prefab; components for objects outside of instances."
  },
  {
   "property": "C15",
   "status": "partial",
   "theorems": [
    "C15_sound",
    "C15_complete_partial",
    "C15_complete_refuted"
   ],
   "note": "Refuted: descendants listed before their parent are missed. Soundness and no-duplicates hold for all lists; completeness when parents come first."
  },
  {
   "property": "C16",
   "status": "partial",
   "theorems": [
    "C16_text_round_trip",
    "C16_exact_round_trip",
    "C16_vertex_ids_refuted",
    "C16_lock_refuted",
    "C16_material_refuted",
    "C16_color_param_refuted",
    "C16_rotation_line"
   ],
   "note": "Refuted for vertex ids of partly registered objects, object locks, emission colours and colour parameters. The round trip is proved down to characters for all documents in the domain: exactly what is kept, and identity for documents without anything the format rounds or drops."
  },
  {
   "property": "C17",
   "status": "partial",
   "theorems": [
    "C17_material_refuted",
    "C17_next_face_refuted",
    "C17_negative_material",
    "C17_with_material_partial"
   ],
   "note": "Refuted: every face with a negative material index and UVs comes back with material 0 and without UVs; without UVs the next face is damaged. Faces with a material are kept."
  },
  {
   "property": "C18",
   "status": "partial",
   "theorems": [
    "C18_first_save",
    "C18_second_save",
    "C18_idempotent_iff",
    "C18_save_twice_refuted"
   ],
   "note": "Refuted: the object list doubles on every save as soon as one object is weighted."
  },
  {
   "property": "C19",
   "status": "proved",
   "theorems": [
    "C19_pmx_round_trip",
    "C19_pmx_resave_stable"
   ],
   "note": "Joints need equal bone and rigid-body index widths (see C20); float32 as bit patterns; UTF-16 decoder and 1-w are arbitrary functions."
  },
  {
   "property": "C20",
   "status": "partial",
   "theorems": [
    "C20_joints_refuted",
    "C20_joints_equal_widths"
   ],
   "note": "Refuted: writer uses the bone index width, reader the rigid-body width. Holds when the widths are equal."
  },
  {
   "property": "C21",
   "status": "partial",
   "theorems": [
    "C21_skin_after_save",
    "C21_skin_stable",
    "C21_one_weight_refuted",
    "C21_two_weights_refuted"
   ],
   "note": "Refuted for one or two unnormalised weights; the exact result of a save is characterised and stable."
  },
  {
   "property": "C22",
   "status": "partial",
   "theorems": [
    "C22_truncation_refuted",
    "C22_never_reported"
   ],
   "note": "Refuted: no error is ever returned after the magic."
  },
  {
   "property": "C23",
   "status": "partial",
   "theorems": [
    "C23_texture_index_refuted",
    "C23_face_index_wraps"
   ],
   "note": "Refuted: indices are truncated silently; in-range indices are kept (C19)."
  },
  {
   "property": "C24",
   "status": "proved",
   "theorems": [
    "C24_bone_channels",
    "C24_morph_channels",
    "C24_parsed_frames"
   ],
   "note": "For any sort order of equal frames; the maps are entry lists."
  },
  {
   "property": "C25",
   "status": "proved",
   "theorems": [
    "C25_decode",
    "C25_bad_magic"
   ],
   "note": "For any Shift-JIS decoder; text fields of any length up to the field width with arbitrary bytes after the terminator."
  },
  {
   "property": "C26",
   "status": "proved",
   "theorems": [
    "C26_tree_exact",
    "C26_every_tree",
    "C26_unambiguous"
   ],
   "note": "Raw and zlib arrays; zlib is an arbitrary function that delivers the array bytes. Allocation is taken to succeed."
  },
  {
   "property": "C27",
   "status": "partial",
   "theorems": [
    "C27_stream_refuted",
    "C27_stream_partial"
   ],
   "note": "Refuted: a compressed array whose stream is not consumed to its last byte makes the same file fail on a reader without Seek. Files without such arrays read identically."
  },
  {
   "property": "C28",
   "status": "partial",
   "theorems": [
    "C28_refuted",
    "C28_quote_rejected",
    "C28_raw_rejected",
    "C28_exponent_rejected",
    "C28_exact",
    "C28_image_partial"
   ],
   "note": "Refuted: strings with quotes, non-empty raw data and numbers with an exponent are written in a form the parser rejects. Trees of strings, 64-bit integers, pointed numbers and int32/float32 arrays come back exactly; others come back as the stated image."
  },
  {
   "property": "C29",
   "status": "partial",
   "theorems": [
    "C29_shared_refuted",
    "C29_unique_ids",
    "C29_twice",
    "C29_documents"
   ],
   "note": "Refuted: geometries inside version 6100 models share the node of the model, so giving one an id changes the other. Proved for any additions of objects with their own nodes, to any document."
  },
  {
   "property": "C30",
   "status": "proved",
   "theorems": [
    "C30_polygons",
    "C30_vertices",
    "C30_indices",
    "C30_count_partial",
    "C30_count_refuted"
   ],
   "note": "The claim on polygons is proved in full. In addition PolygonVertexCount is right for geometries with polygons and wrong (1) without."
  },
  {
   "property": "C31",
   "status": "partial",
   "theorems": [
    "C31_map_refuted",
    "C31_duplicate",
    "C31_crashes",
    "C31_map_partial",
    "C31_set_get_partial"
   ],
   "note": "Refuted: with a duplicate name and an unread object Set changes the first entry and Get returns the last; without Properties70 Set crashes. Proved for sequences on objects with complete entries of distinct names."
  },
  {
   "property": "C32",
   "status": "partial",
   "theorems": [
    "C32_layers_refuted",
    "C32_values_lost",
    "C32_uv_overwrites_normals"
   ],
   "note": "Refuted: the setters never store their values, and the UV setter empties the normals."
  },
  {
   "property": "C33",
   "status": "proved",
   "theorems": [
    "C33_faces",
    "C33_total"
   ],
   "note": ""
  },
  {
   "property": "C34",
   "status": "partial",
   "theorems": [
    "C34_unused_vertex_refuted",
    "C34_targets_partial"
   ],
   "note": "Refuted: a morph that names a vertex no face uses moves vertex 0 of its base object. Proved for morphs whose vertices are all used by faces."
  },
  {
   "property": "C35",
   "status": "partial",
   "theorems": [
    "C35_twice_refuted",
    "C35_weights_partial"
   ],
   "note": "Refuted: in morph bases the second weight of a bone is added without the factor 100. Proved for material objects, and for morph bases when no bone is listed twice."
  },
  {
   "property": "C36",
   "status": "proved",
   "theorems": [
    "C36_faces",
    "C36_counts",
    "C36_total"
   ],
   "note": ""
  },
  {
   "property": "C37",
   "status": "partial",
   "theorems": [
    "C37_morph_z_refuted",
    "C37_normal_z_refuted",
    "C37_kinematic_refuted",
    "C37_size_refuted",
    "C37_offset_partial",
    "C37_offset_sound_partial",
    "C37_normal_partial",
    "C37_body_partial"
   ],
   "note": "Refuted: the z offset of morphs is dropped, normals are not mirrored, the kinematic flag is inverted and body sizes get a negative z. Proved: x and y of the offsets, which vertices move, and names and positions of bodies."
  },
  {
   "property": "C38",
   "status": "partial",
   "theorems": [
    "C38_unskinned_refuted",
    "C38_direct",
    "C38_saved_partial"
   ],
   "note": "Refuted: a vertex without weights is saved with bone -1, which crashes the conversion back. Proved without the file in between, and with it if no vertex has zero or three weights."
  },
  {
   "property": "C39",
   "status": "partial",
   "theorems": [
    "C39_sibling_refuted",
    "C39_gap_refuted",
    "C39_once",
    "C39_earlier",
    "C39_tree_partial",
    "C39_flat",
    "C39_bones",
    "C39_reachable"
   ],
   "note": "Refuted: after an object without a node (a morph target) or a skipped depth, siblings become parent and child. Proved: every node is referenced once, parents come earlier, nothing is unreachable; the object tree if the depths of the exported objects go up by one at most."
  },
  {
   "property": "C40",
   "status": "proved",
   "theorems": [
    "C40_position",
    "C40_rest"
   ],
   "note": "Over exact real numbers."
  },
  {
   "property": "C41",
   "status": "partial",
   "theorems": [
    "C41_strongest_refuted",
    "C41_joints_valid",
    "C41_few",
    "C41_five_partial",
    "C41_sum"
   ],
   "note": "Refuted: with six weights a stronger one can lose against a weaker one, because the kept weights are normalised in between. Proved: valid joints, all weights kept up to four, the weakest dropped of five, the sum is 1 above four."
  },
  {
   "property": "C42",
   "status": "proved",
   "theorems": [
    "C42_valid",
    "C42_renumbered"
   ],
   "note": "At most 65536 weight lists per object (joint numbers are uint16)."
  },
  {
   "property": "C43",
   "status": "partial",
   "theorems": [
    "C43_offset_refuted",
    "C43_unindexed_refuted",
    "C43_exact",
    "C43_shared_partial"
   ],
   "note": "Refuted: indices of later primitives are not moved behind the vertices of the earlier ones; primitives without indices disappear. Proved: exactly what is imported, and the claim for primitives with shared positions."
  },
  {
   "property": "C44",
   "status": "proved",
   "theorems": [
    "C44_round_trip"
   ],
   "note": "For whole documents: names, positions, orientation, materials and texture coordinates of all triangles."
  },
  {
   "property": "C45",
   "status": "partial",
   "theorems": [
    "C45_scale_refuted",
    "C45_positions",
    "C45_bounds",
    "C45_exact_partial",
    "C45_binds_partial",
    "C45_total",
    "C45_offsets_partial"
   ],
   "note": "Refuted: node translations, morph offsets and inverse bind matrices are not scaled. Proved: positions are transformed exactly once, bounds are exact, a scaled mesh is right exactly when its node is at the origin, unscaled inverse bind matrices are unchanged, no crash."
  },
  {
   "property": "C46",
   "status": "partial",
   "theorems": [
    "C46_deep_refuted",
    "C46_scale_refuted",
    "C46_static_mesh_refuted",
    "C46_scaled_bind_refuted",
    "C46_places_partial",
    "C46_depth_partial",
    "C46_first_partial",
    "C46_binds_partial",
    "C46_total"
   ],
   "note": "Refuted: rotations survive below depth ten if children come first; non-uniform scales move joints; unskinned meshes turn; scaled inverse bind matrices become wrong. Proved: no node moves with uniform scales; rotations vanish down to depth nine, or at any depth with parents first; inverse bind matrices of unscaled skeletons stay inverse; no crash."
  },
  {
   "property": "C47",
   "status": "proved",
   "theorems": [
    "C47_once",
    "C47_exact",
    "C47_ignored",
    "C47_user_first",
    "C47_check"
   ],
   "note": "All configs and documents. Limits and values of a bone other than useDefaultValues are not modelled."
  },
  {
   "property": "C48",
   "status": "partial",
   "theorems": [
    "C48_existing_refuted",
    "C48_order_refuted",
    "C48_apart_partial",
    "C48_total"
   ],
   "note": "Refuted: groups already in the document and bones listed in the config are not checked; which roots are taken depends on the random order of Go maps. Proved: without these no node is below two roots, for any pattern matcher and any order; every root was asked for; every node asked for shares a node with a root; no endless recursion on forests."
  },
  {
   "property": "C49",
   "status": "proved",
   "theorems": [
    "C49_local",
    "C49_conjugate",
    "C49_world",
    "C49_world_place",
    "C49_total",
    "C49_cycle"
   ],
   "note": "Exact arithmetic; any quaternion, not only unit ones. World matrices through any chain of fathers; a cycle of fathers never ends (C49_cycle)."
  },
  {
   "property": "C50",
   "status": "proved",
   "theorems": [
    "C50_sphere",
    "C50_cylinder",
    "C50_capsule",
    "C50_cube",
    "C50_uvs",
    "C50_thin"
   ],
   "note": "Closed, consistently oriented, valid and distinct indices, every vertex used, Euler characteristic 2, for every tessellation from three segments and two rows; C50_thin shows the bounds are needed."
  },
  {
   "property": "C51",
   "status": "partial",
   "theorems": [
    "C51_body_refuted",
    "C51_end_refuted",
    "C51_crash_refuted",
    "C51_split_partial"
   ],
   "note": "Refuted: a body ends with the three dashes of the next document, a last line of up to two characters is lost, and a tag equal to a declared handle stops the program. Proved for files of any length: one entry per document, in order, with tag, id and the lines of the body."
  },
  {
   "property": "C52",
   "status": "proved",
   "theorems": [
    "C52_hide",
    "C52_none"
   ],
   "note": "Any depths (also with gaps), any patterns; the meaning of a pattern (path.Match) is a parameter."
  },
  {
   "property": "C53",
   "status": "partial",
   "theorems": [
    "C53_first_holder_keeps_name_refuted",
    "C53_first_holder_partial"
   ],
   "note": "Refuted: [a; a; a_2] becomes [a; a_2; a_2_2]."
  },
  {
   "property": "C54",
   "status": "partial",
   "theorems": [
    "C54_truncation_refuted",
    "C54_truncation_partial"
   ],
   "note": "Refuted: a cut inside the last morph value is not reported and the value reads as 0. Every other cut is reported."
  },
  {
   "property": "C55",
   "status": "proved",
   "theorems": [
    "C55_decode",
    "C55_materials_unique",
    "C55_names_distinct"
   ],
   "note": "For any Shift-JIS decoder and any float32 arithmetic on weights and alpha."
  },
  {
   "property": "C56",
   "status": "partial",
   "theorems": [
    "C56_no_crash_refuted",
    "C56_out_of_range_crashes",
    "C56_in_range_partial"
   ],
   "note": "Refuted: exactly the well-formed files with an out of range IK bone or morph vertex crash the loader."
  },
  {
   "property": "C57",
   "status": "partial",
   "theorems": [
    "C57_truncation_refuted",
    "C57_never_reported"
   ],
   "note": "Refuted: no input with the PMD magic is ever rejected."
  },
  {
   "property": "C58",
   "status": "partial",
   "theorems": [
    "C58_save_refuted",
    "C58_pmd_crashes",
    "C58_pmx_partial"
   ],
   "note": "Refuted: WritePMX crashes on every document loaded from a PMD file. Documents loaded from PMX files with a complete header and agreeing joint widths can be saved."
  },
  {
   "property": "C59",
   "status": "partial",
   "theorems": [
    "C59_footer_refuted",
    "C59_large_rejected",
    "C59_wide_rejected",
    "C59_footer_narrow_partial",
    "C59_footer_wide_partial"
   ],
   "note": "Refuted: the footer is read as a node record; 32-bit files above 162249978 bytes and 64-bit files on file systems with smaller offset limits are rejected."
  },
  {
   "property": "C60",
   "status": "partial",
   "theorems": [
    "C60_truncation_refuted",
    "C60_too_short_partial"
   ],
   "note": "Refuted: a cut at a field boundary is taken for the regular end."
  },
  {
   "property": "C61",
   "status": "proved",
   "theorems": [
    "C61_terminates",
    "C61_text_terminates"
   ],
   "note": ""
  },
  {
   "property": "C62",
   "status": "partial",
   "theorems": [
    "C62_comment_refuted",
    "C62_short_rejected",
    "C62_short_misread",
    "C62_comment_partial"
   ],
   "note": "Refuted: with a first line shorter than 21 bytes pushed-back characters land behind the read-ahead and files are rejected or misread. Proved for comments of at least twenty characters."
  },
  {
   "property": "C63",
   "status": "partial",
   "theorems": [
    "C63_world_refuted",
    "C63_cycle",
    "C63_world_partial",
    "C63_chain_unique",
    "C63_parent"
   ],
   "note": "Refuted: models connected in a loop make GetWorldMatrix recurse for ever. Proved for connections without loops."
  },
  {
   "property": "C64",
   "status": "partial",
   "theorems": [
    "C64_refuted",
    "C64_too_many_faces",
    "C64_total_partial"
   ],
   "note": "Refuted: a vertex without bones (bone -1) and material counts above the number of faces crash. Proved when weights name existing bones and materials cover the faces."
  },
  {
   "property": "C65",
   "status": "partial",
   "theorems": [
    "C65_strongest_refuted",
    "C65_weights_partial"
   ],
   "note": "Refuted: the first four weights are kept, not the strongest. Proved: exactly the first four, in the order of the bones, so all of them if there are at most four."
  },
  {
   "property": "C66",
   "status": "partial",
   "theorems": [
    "C66_missing_parent_refuted",
    "C66_cycle_refuted",
    "C66_negative_inherit_refuted",
    "C66_to_pmx_partial",
    "C66_round_trip_partial",
    "C66_forest_partial"
   ],
   "note": "Refuted: missing parents become the first bone, inherited rotation can make a cycle, a negative inherit parent panics. Proved for lists whose parents exist and without inherited rotation."
  },
  {
   "property": "C67",
   "status": "proved",
   "theorems": [
    "C67_smooth",
    "C67_unit",
    "C67_complete"
   ],
   "note": ""
  },
  {
   "property": "C68",
   "status": "partial",
   "theorems": [
    "C68_normals_refuted",
    "C68_morph_refuted",
    "C68_objects",
    "C68_drawn",
    "C68_document"
   ],
   "note": "Refuted: corners of one vertex with close texture coordinates share a normal although the faces give different ones; morph targets with another number of vertices disappear. Proved: everything else; the normal is one some face gives to the vertex."
  },
  {
   "property": "C69",
   "status": "partial",
   "theorems": [
    "C69_missing_target_refuted",
    "C69_missing_parent_refuted",
    "C69_missing_vertex_refuted",
    "C69_total_partial"
   ],
   "note": "Refuted: missing morph targets, bone parents and weight vertices crash. Proved: documents without dangling references are exported."
  },
  {
   "property": "C70",
   "status": "partial",
   "theorems": [
    "C70_alpha_refuted",
    "C70_unlit_refuted",
    "C70_default_refuted",
    "C70_alpha_lost_partial",
    "C70_unlit_partial",
    "C70_rest_partial"
   ],
   "note": "Refuted: alpha mode and unlit are lost, rough non-metals become unlit, materials without PBR factors transparent black. Proved: the other values survive."
  },
  {
   "property": "C71",
   "status": "partial",
   "theorems": [
    "C71_position_refuted",
    "C71_lost_refuted",
    "C71_nested_refuted",
    "C71_bones",
    "C71_skins",
    "C71_total"
   ],
   "note": "Refuted: ancestors of the skeleton root are ignored; skins without a skeleton root (all skins written by this program) give no bones; nested roots duplicate bones. Proved: numbering, names, parents and relative positions below a root; every root is imported exactly once; no crash on finite skeletons."
  },
  {
   "property": "C72",
   "status": "partial",
   "theorems": [
    "C72_offset_refuted",
    "C72_shared_refuted",
    "C72_values_partial",
    "C72_others",
    "C72_total"
   ],
   "note": "Refuted: accessor offsets are not doubled, other attributes in the same view are destroyed. Proved: the claim for views of their own with offset 0, other views untouched, no crash."
  },
  {
   "property": "C73",
   "status": "partial",
   "theorems": [
    "C73_mesh_refuted",
    "C73_shared_refuted",
    "C73_first_person_refuted",
    "C73_bone_nodes_partial",
    "C73_first_person_partial"
   ],
   "note": "Refuted: the fallback takes mesh nodes; bones may share a node; an ignored head gives -1, a head found by its own name gives no first person bone. Proved: mapped bones are not mesh nodes; a mapped head is the first person bone."
  },
  {
   "property": "C74",
   "status": "partial",
   "theorems": [
    "C74_top_refuted",
    "C74_names_refuted",
    "C74_only_roots",
    "C74_exact_partial",
    "C74_applied"
   ],
   "note": "Refuted: nodes without parent are compared with node 0; chains of equal names are lost. Proved: only chain starts are detected, and all of those that have a parent; with distinct plain names each detected node becomes a root."
  },
  {
   "property": "C75",
   "status": "partial",
   "theorems": [
    "C75_merge_refuted",
    "C75_extensions_refuted",
    "C75_user_first_refuted",
    "C75_exact",
    "C75_others",
    "C75_crash",
    "C75_merge_partial"
   ],
   "note": "Refuted: a preset with settings crashes if the config has none; unlit deletes other extensions; the wildcard of the user loses to a named setting of the preset. Proved: exact effect of a setting, other materials unchanged, exact crash condition, exact merge."
  },
  {
   "property": "C76",
   "status": "partial",
   "theorems": [
    "C76_loaded_refuted",
    "C76_several_refuted",
    "C76_crash_refuted",
    "C76_all_partial",
    "C76_mapped_partial",
    "C76_crash",
    "C76_groups"
   ],
   "note": "Refuted: target names of documents read from a file are not found; a name in several meshes drives only the last; mapping to a node without mesh crashes. Proved: every target is exported, mappings drive a target of their name, exact crash condition."
  },
  {
   "property": "C77",
   "status": "partial",
   "theorems": [
    "C77_names_refuted",
    "C77_box_refuted",
    "C77_shape",
    "C77_exact",
    "C77_own_partial"
   ],
   "note": "Refuted: nodes of equal names share the last node; boxes are dropped. Proved: exact set of colliders and their nodes; with distinct names the node is that of the body."
  },
  {
   "property": "C78",
   "status": "partial",
   "theorems": [
    "C78_capsule_texture_refuted",
    "C78_sphere",
    "C78_cylinder",
    "C78_capsule",
    "C78_cube",
    "C78_sphere_texture"
   ],
   "note": "Refuted: the texture of the capsule side is mirrored and restarts. Proved in exact arithmetic: positions and outward faces of all shapes; the texture of the sphere."
  },
  {
   "property": "C79",
   "status": "partial",
   "theorems": [
    "C79_unknown_refuted",
    "C79_cycle_refuted",
    "C79_exact_partial",
    "C79_crash"
   ],
   "note": "Refuted: an unknown parent is a nil pointer, and bones can become their own descendants. Otherwise exact, for any settings."
  },
  {
   "property": "C80",
   "status": "partial",
   "theorems": [
    "C80_mask_refuted",
    "C80_unlit_refuted",
    "C80_hidemat",
    "C80_ignored",
    "C80_unlit",
    "C80_alpha_partial",
    "C80_alpha_shader_partial",
    "C80_alpha_list"
   ],
   "note": "Refuted: -alpha with a mode replaces the shader (cutoff 0, roughness 0, no longer unlit), and -unlit takes the alpha mode back. The rest is exact; path.Match and ParseFloat are parameters."
  },
  {
   "property": "C81",
   "status": "partial",
   "theorems": [
    "C81_overwrite_refuted",
    "C81_default",
    "C81_format_partial",
    "C81_output",
    "C81_case"
   ],
   "note": "Refuted: -format with the extension of the input overwrites it, and with a motion as last argument the motion. Names are ASCII (strings.ToLower may change the length of other names)."
  },
  {
   "property": "C82",
   "status": "partial",
   "theorems": [
    "C82_nested_refuted",
    "C82_rotation_refuted",
    "C82_joint_refuted",
    "C82_shape_refuted",
    "C82_mirror_refuted",
    "C82_total",
    "C82_points_partial",
    "C82_uniform_local_partial",
    "C82_uniform_shape_partial",
    "C82_options",
    "C82_half_turn",
    "C82_shape_sizes",
    "C82_shape_nonnegative"
   ],
   "note": "Refuted: nested objects are scaled once per level, rotations may change, joints stay, the half turn leaves the axes of shapes, and mirroring turns faces inside out. Vertices, bones and shape positions are exact for every matrix."
  },
  {
   "property": "C83",
   "status": "partial",
   "theorems": [
    "C83_twice_refuted",
    "C83_unnumbered_refuted",
    "C83_bones_partial",
    "C83_counts",
    "C83_vertices_partial",
    "C83_rigid",
    "C83_bodies_partial",
    "C83_total"
   ],
   "note": "Refuted: morph targets with weights of their own are moved twice, and objects without numbers stay behind. Otherwise exact (linear blend by the sum of the weights) if parents are listed first (C15) and names and ids are unique; axes of colliders away from the poles of Euler angles (C05)."
  },
  {
   "property": "C84",
   "status": "partial",
   "theorems": [
    "C84_side_refuted",
    "C84_level_partial",
    "C84_levelled",
    "C84_none",
    "C84_again_partial",
    "C84_auto_partial",
    "C84_others",
    "C84_idle"
   ],
   "note": "Refuted: an arm hanging straight down is always turned to -x, which is into the body for the other arm. The rest is exact, if parents are listed first (C15)."
  },
  {
   "property": "C85",
   "status": "partial",
   "theorems": [
    "C85_turned_refuted",
    "C85_place_refuted",
    "C85_channels",
    "C85_same_turn_partial",
    "C85_about_z_partial",
    "C85_place_partial"
   ],
   "note": "Refuted: the correction for arms turned by -autotpose is multiplied on the wrong side, and translations are absolute although nodes are relative to their parents. Times, channels and values are exact; the motion is right for bones turned with their parents, and for rotations about z; translations are right below a parent at the origin."
  },
  {
   "property": "C86",
   "status": "partial",
   "theorems": [
    "C86_times_refuted",
    "C86_lost_refuted",
    "C86_meshes_refuted",
    "C86_over_refuted",
    "C86_channels_partial"
   ],
   "note": "Refuted: morphs of one mesh with other keys are played at wrong times or lost, of meshes sharing a target name only one moves, and weights over 1 wrap around. Exact if names are unique in the document and the morphs of a mesh share their keys."
  },
  {
   "property": "C87",
   "status": "partial",
   "theorems": [
    "C87_local_refuted",
    "C87_hidden_refuted",
    "C87_scene",
    "C87_ids",
    "C87_total",
    "C87_local_partial"
   ],
   "note": "Refuted: local rotations are stored with one order of angles and read with another (C06), and hidden morph targets of imported meshes are shown. Order, depth, ids, names, visibility and the places of meshes are proved for all scenes; local transforms for rotations that SetRotation keeps. Imported meshes are an arbitrary function."
  },
  {
   "property": "C88",
   "status": "partial",
   "theorems": [
    "C88_cylinder_refuted",
    "C88_none_refuted",
    "C88_embedded_refuted",
    "C88_offset_refuted",
    "C88_faces_partial",
    "C88_once",
    "C88_builtin"
   ],
   "note": "Refuted: texture coordinates of the two ends of a cylinder are scaled twice, meshes without material get that of another object, materials embedded in one file are taken for the same, and texture offsets are ignored. The first material and the tiling are right for the other meshes."
  },
  {
   "property": "C89",
   "status": "partial",
   "theorems": [
    "C89_centre_refuted",
    "C89_stretched_refuted",
    "C89_mesh_refuted",
    "C89_capsule_refuted",
    "C89_order_refuted",
    "C89_bodies_partial",
    "C89_none",
    "C89_centre_partial"
   ],
   "note": "Refuted: centres are not mirrored, boxes take the x scale for all directions, mesh colliders are not scaled and twice as large, the direction of capsules is ignored, and angles have another order than their readers expect. Bodies, targets, masses and shapes are proved; sizes and axes where nothing is stretched, places for centres with z = 0."
  },
  {
   "property": "C90",
   "status": "partial",
   "theorems": [
    "C90_slip_refuted",
    "C90_leak_refuted",
    "C90_inside_iff",
    "C90_outside_partial",
    "C90_close_partial"
   ],
   "note": "Refuted: names of entries are not checked, so an archive replaces any file; after an error the unpacked files stay. Exactly the names that never lead above their start are harmless; for them nothing outside changes and Close restores everything."
  },
  {
   "property": "C91",
   "status": "partial",
   "theorems": [
    "C91_nodirs_refuted",
    "C91_line_refuted",
    "C91_files_partial",
    "C91_all_partial",
    "C91_guid_partial",
    "C91_path_partial",
    "C91_open_partial",
    "C91_meta_partial",
    "C91_opens_partial"
   ],
   "note": "Refuted: archives without entries for directories are rejected, and a second line of pathname belongs to the path. Everything else is proved for archives with names without \"..\"."
  },
  {
   "property": "C92",
   "status": "partial",
   "theorems": [
    "C92_inside_refuted",
    "C92_hash_refuted",
    "C92_slash_refuted",
    "C92_scene_partial",
    "C92_assets",
    "C92_only"
   ],
   "note": "Refuted: below a directory like GameAssets, or one with a # in its name, scenes are not found, nor with a slash at the end of the directory. Proved for all other paths on Unix. Decoding of meta files and the order of the walk are arbitrary."
  },
  {
   "property": "C93",
   "status": "partial",
   "theorems": [
    "C93_rect_refuted",
    "C93_visited",
    "C93_loaded"
   ],
   "note": "Refuted: objects below a RectTransform are not visited, since only plain transforms are known. Proved for scenes in which every object has a plain transform. YAML decoding is left out."
  },
  {
   "property": "C94",
   "status": "partial",
   "theorems": [
    "C94_variant_refuted",
    "C94_name_refuted",
    "C94_size_refuted",
    "C94_numbers_partial",
    "C94_object_partial",
    "C94_materials_partial",
    "C94_tree_partial",
    "C94_root_partial",
    "C94_child_partial",
    "C94_child_other_partial",
    "C94_once"
   ],
   "note": "Refuted: instances of prefab variants are lost below a parent; names that are numbers become empty; materials cannot be added. Proved for prefabs whose root is an object of the prefab file. Modifications of other components than transforms, objects and mesh renderers, and of the list of children, are left out."
  },
  {
   "property": "C95",
   "status": "partial",
   "theorems": [
    "C95_itself_refuted",
    "C95_crash_refuted",
    "C95_loaded_partial",
    "C95_error"
   ],
   "note": "Refuted: a prefab that contains itself is loaded without end; an instance without m_TransformParent and modifications with a negative or missing index crash. Proved without these."
  },
  {
   "property": "C96",
   "status": "partial",
   "theorems": [
    "C96_limb_refuted",
    "C96_names_refuted",
    "C96_tree_partial",
    "C96_binary_names_partial",
    "C96_text_names_partial"
   ],
   "note": "Refuted: meshes below a bone are lost, names that look like a type are cut. Proved: the objects are the models that are not below bones, with names, depths and numbers; once each if the models form a tree. Documents are given after the accessors for nodes have read them; TargetModelName is not given."
  },
  {
   "property": "C97",
   "status": "partial",
   "theorems": [
    "C97_uv_refuted",
    "C97_normal_refuted",
    "C97_byvertice_refuted",
    "C97_bare_refuted",
    "C97_mirror_refuted",
    "C97_mesh_partial",
    "C97_faces_partial",
    "C97_side_partial",
    "C97_short"
   ],
   "note": "Refuted: texture coordinates by vertex and normals of mapping ByVertice are dropped, normals with indexes are read without them, models without materials get the first material of the document, mirrored models are turned inside out. Proved over exact reals (faces: any numbers) for full layers of the kinds that are read. Layers with too few values or another mapping are left out as a whole (C97_short)."
  },
  {
   "property": "C98",
   "status": "partial",
   "theorems": [
    "C98_index_refuted",
    "C98_bind_refuted",
    "C98_axis_refuted",
    "C98_circle_refuted",
    "C98_total_partial"
   ],
   "note": "Refuted: negative indexes of materials, texture coordinates and shapes, a deformer bound to the scene, and unknown axes crash; models connected in a circle are followed without end. Proved for documents without these."
  },
  {
   "property": "C99",
   "status": "partial",
   "theorems": [
    "C99_name_refuted",
    "C99_same_refuted",
    "C99_shapes_partial"
   ],
   "note": "Refuted: names of shapes keep the type that binary files add; shapes of the same name in two models give two objects with one name. Proved over exact reals: the objects after each model are its shapes in order, with moved vertices and the faces of the model, and morph sets name them."
  }
 ]
}