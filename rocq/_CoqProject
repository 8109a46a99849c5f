-Q theories Verif
theories/PyStr.v
theories/PyStrFacts.v
theories/Regex.v
theories/RegexFacts.v
theories/M_constants.v
theories/M_evr.v
theories/M_changelog.v
theories/Spec_changelog.v
theories/P_changelog.v
theories/P_changelog2.v
theories/P_changelog3.v
theories/Properties_changelog.v
theories/Spec_evr.v
theories/P_evr.v
theories/Properties_evr.v
theories/M_value.v
theories/Spec_value.v
theories/P_value.v
theories/P_value2.v
theories/Properties_value.v
theories/Spec_value2.v
theories/P_value3.v
theories/P_value4.v
theories/Properties_value2.v
theories/M_macro_definitions.v
theories/Spec_macro_definitions.v
theories/P_macro_definitions.v
theories/P_macro_definitions2.v
theories/P_macro_definitions3.v
theories/Properties_macro_definitions.v
theories/M_conditions.v
theories/Spec_conditions.v
theories/P_conditions.v
theories/P_conditions2.v
theories/P_conditions3.v
theories/Properties_conditions.v
theories/M_options.v
theories/Spec_options.v
theories/P_options.v
theories/P_options2.v
theories/P_options3.v
theories/P_options4.v
theories/P_options5.v
theories/Properties_options.v
theories/M_options2.v
theories/Spec_options2.v
theories/P_options6.v
theories/Properties_options2.v
theories/Spec_quoting.v
theories/P_quoting.v
theories/Properties_quoting.v
theories/M_sections.v
theories/Spec_sections.v
theories/P_sections.v
theories/P_sections2.v
theories/P_sections3.v
theories/P_sections4.v
theories/P_sections5.v
theories/Properties_sections.v
theories/M_tags.v
theories/Spec_tags.v
theories/Spec_tags_demo.v
theories/P_tags.v
theories/P_tags2.v
theories/P_tags3.v
theories/P_tags4.v
theories/P_tags5.v
theories/Spec_tags2.v
theories/P_tags6.v
theories/Properties_tags.v
theories/Properties_tags2.v
theories/M_sourcelist.v
theories/M_sources.v
theories/Spec_sources.v
theories/P_sourcelist.v
theories/P_sources.v
theories/P_sources2.v
theories/P_sources3.v
theories/P_sources4.v
theories/P_sources5.v
theories/P_sources6.v
theories/P_sources7.v
theories/P_sources8.v
theories/P_sources9.v
theories/Properties_sources.v
theories/M_prep.v
theories/Spec_prep.v
theories/P_prep.v
theories/P_prep2.v
theories/P_prep3.v
theories/Properties_prep.v
theories/M_release.v
theories/Spec_release.v
theories/P_release.v
theories/P_release2.v
theories/Properties_release.v
theories/M_file.v
theories/Spec_file.v
theories/P_file.v
theories/Properties_file.v
theories/M_context.v
theories/Spec_context.v
theories/P_context.v
theories/P_context2.v
theories/P_context3.v
theories/M_views.v
theories/Spec_views.v
theories/P_views.v
theories/P_views2.v
theories/Properties_context.v
theories/M_macros.v
theories/Spec_macros.v
theories/P_macros.v
theories/P_macros2.v
theories/P_macros3.v
theories/Properties_macros.v
theories/M_spec_parser.v
theories/Spec_spec_parser.v
theories/P_spec_parser.v
theories/P_spec_parser2.v
theories/P_spec_parser3.v
theories/P_spec_parser4.v
theories/P_spec_parser5.v
theories/Properties_spec_parser.v
theories/Spec_spec_parser2.v
theories/P_spec_parser6.v
theories/P_spec_parser7.v
theories/Properties_spec_parser2.v
theories/M_add_entry.v
theories/Spec_add_entry.v
theories/P_add_entry.v
theories/Properties_add_entry.v
theories/M_update.v
theories/Spec_update.v
theories/P_update.v
theories/P_update2.v
theories/P_update3.v
theories/P_update4.v
theories/P_update5.v
theories/P_update6.v
theories/P_update7.v
theories/P_update8.v
theories/P_update9.v
theories/Properties_update.v
theories/Properties_update2.v
theories/M_specfile.v
theories/Spec_specfile.v
theories/Spec_specfile_demo.v
theories/P_specfile.v
theories/P_specfile2.v
theories/P_specfile3.v
theories/P_specfile4.v
theories/P_specfile5.v
theories/P_specfile6.v
theories/P_specfile7.v
theories/P_specfile8.v
theories/P_specfile9.v
theories/Properties_specfile.v
theories/Spec_specfile2.v
theories/P_specfile10.v
theories/P_specfile11.v
theories/P_specfile12.v
theories/P_specfile13.v
theories/P_specfile14.v
theories/P_specfile15.v
theories/P_specfile16.v
theories/P_specfile17.v
theories/M_specfile2.v
theories/Spec_specfile3.v
theories/P_specfile18.v
theories/P_specfile19.v
theories/P_specfile20.v
theories/P_specfile21.v
theories/P_specfile22.v
theories/P_specfile23.v
theories/Properties_specfile3.v
theories/Spec_specfile4.v
theories/P_specfile24.v
theories/P_specfile25.v
theories/P_specfile26.v
theories/Properties_specfile4.v
theories/Spec_specfile5.v
theories/P_specfile27.v
theories/P_specfile28.v
theories/P_specfile29.v
theories/Properties_specfile5.v
theories/Spec_specfile6.v
theories/P_specfile30.v
theories/P_specfile31.v
theories/P_specfile32.v
theories/P_specfile33.v
theories/Properties_specfile6.v
theories/M_comments.v
theories/Spec_comments.v
theories/P_comments.v
theories/Properties_lists.v
theories/Properties_specfile2.v
theories/M_shared.v
theories/P_shared.v
theories/Properties_shared.v
theories/M_inherited.v
theories/Spec_inherited.v
theories/P_inherited.v
theories/Properties_inherited.v
theories/M_bytes.v
theories/Spec_bytes.v
theories/P_bytes.v
theories/P_bytes2.v
theories/Properties_bytes.v
theories/M_sources_seq.v
theories/P_sources_seq.v
theories/Properties_sources_seq.v
theories/M_history.v
theories/Spec_history.v
theories/P_history.v
theories/Properties_history.v
theories/M_expand.v
theories/Spec_expand.v
theories/P_expand.v
theories/Properties_expand.v
theories/P_parsed.v
theories/Properties_parsed.v
theories/M_formatter.v
theories/Spec_formatter.v
theories/P_formatter.v
theories/P_formatter2.v
theories/P_formatter3.v
theories/Properties_formatter.v
theories/M_capture.v
theories/Spec_capture.v
theories/P_capture.v
theories/Properties_capture.v
theories/M_deepcopy.v
theories/Spec_deepcopy.v
theories/P_deepcopy.v
theories/Properties_deepcopy.v
theories/M_slice.v
theories/Spec_slice.v
theories/P_slice.v
theories/P_slice2.v
theories/P_slice3.v
theories/P_slice4.v
theories/P_slice5.v
theories/Properties_slice.v
theories/M_url.v
theories/Spec_url.v
theories/P_url.v
theories/Properties_url.v
theories/M_dump.v
theories/P_dump.v
theories/Properties_dump.v
theories/M_equality.v
theories/Spec_equality.v
theories/P_equality.v
theories/P_equality2.v
theories/Properties_equality.v
theories/P_bytes3.v
theories/Properties_bytes2.v
theories/Spec_bytes2.v
theories/P_bytes4.v
theories/Properties_bytes3.v
theories/M_changelog_text.v
theories/Spec_changelog_text.v
theories/P_changelog_text.v
theories/Properties_changelog_text.v
theories/M_access.v
theories/Spec_access.v
theories/P_access.v
theories/Properties_access.v
theories/Spec_script.v
theories/P_script.v
theories/P_sources_count.v
theories/Properties_script.v
theories/M_section_objects.v
theories/Spec_section_objects.v
theories/P_section_objects.v
theories/Properties_section_objects.v
theories/P_rest.v
theories/Properties_rest.v
theories/P_closest.v
theories/Properties_closest.v
theories/P_rest2.v
theories/Spec_section_options.v
theories/P_section_options.v
theories/Properties_rest2.v
theories/P_numbers.v
theories/Properties_numbers.v
theories/P_missing.v
theories/Properties_missing.v
