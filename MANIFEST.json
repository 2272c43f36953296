{
 "claims": [
  {
   "property": "C01",
   "status": "proved",
   "theorems": [
    "auto_ids_fresh",
    "auto_ids_pairwise_distinct"
   ],
   "note": ""
  },
  {
   "property": "C02",
   "status": "proved",
   "theorems": [
    "auto_ids_smallest_in_range",
    "allocation_fails_iff_range_full",
    "auto_id_above_max_refuted"
   ],
   "note": "The refuted theorem shows that start > max is not caught for the first value."
  },
  {
   "property": "C03",
   "status": "proved",
   "theorems": [
    "node_ids_unique",
    "node_ids_duplicate_reported",
    "node_ids_succeed_when_enough_ids"
   ],
   "note": ""
  },
  {
   "property": "C04",
   "status": "proved",
   "theorems": [
    "pool_prefixes_disjoint"
   ],
   "note": ""
  },
  {
   "property": "C05",
   "status": "proved",
   "theorems": [
    "nth_prefix_function_of_n",
    "loopback_address_function_of_id",
    "nth_prefix_shifted_by_next_refuted"
   ],
   "note": ""
  },
  {
   "property": "C06",
   "status": "proved",
   "theorems": [
    "pool_exhaustion_exact",
    "pool_failure_is_permanent"
   ],
   "note": ""
  },
  {
   "property": "C07",
   "status": "proved",
   "theorems": [
    "auto_addresses_in_prefix",
    "auto_addresses_distinct",
    "auto_addresses_have_host_bits",
    "p2p_addresses_order_independent",
    "single_usable_address_refuted",
    "id_based_slash31_refuted",
    "id_based_same_node_twice_refuted"
   ],
   "note": "Textual addresses are integers. The three refuted theorems show that each excluded corner case is real."
  },
  {
   "property": "C08",
   "status": "proved",
   "theorems": [
    "auto_addresses_avoid_gateway",
    "gateway_collision_slash31_refuted",
    "gateway_collision_explicit_policy_refuted"
   ],
   "note": ""
  },
  {
   "property": "C09",
   "status": "proved",
   "theorems": [
    "duplicate_check_exact",
    "duplicate_report_names_owner"
   ],
   "note": ""
  },
  {
   "property": "C10",
   "status": "proved",
   "theorems": [
    "auto_ifindex_unique",
    "auto_ifindex_smallest_free",
    "auto_ifindex_globally_unique",
    "explicit_ifindex_duplicate_refuted"
   ],
   "note": ""
  },
  {
   "property": "C11",
   "status": "proved",
   "theorems": [
    "neighbors_complete",
    "neighbors_symmetric",
    "neighbor_names_unique"
   ],
   "note": "Module attributes in neighbor data are not modelled. neighbor_names_unique discharges the hypothesis of neighbors_symmetric for automatically named interfaces."
  },
  {
   "property": "C12",
   "status": "proved",
   "theorems": [
    "link_indices_consecutive"
   ],
   "note": ""
  },
  {
   "property": "C13",
   "status": "proved",
   "theorems": [
    "dependency_sort_sound",
    "single_object_self_dependency_refuted"
   ],
   "note": ""
  },
  {
   "property": "C14",
   "status": "proved",
   "theorems": [
    "dependency_sort_fails_iff_cycle"
   ],
   "note": ""
  },
  {
   "property": "C15",
   "status": "proved",
   "theorems": [
    "recursive_groups_detected"
   ],
   "note": ""
  },
  {
   "property": "C16",
   "status": "proved",
   "theorems": [
    "reverse_topsort_sound",
    "reverse_topsort_ends_iff_acyclic",
    "checked_groups_sortable"
   ],
   "note": ""
  },
  {
   "property": "C17",
   "status": "proved",
   "theorems": [
    "group_members_exact",
    "group_members_fails_iff",
    "group_members_succeeds",
    "group_members_deep_refuted"
   ],
   "note": ""
  },
  {
   "property": "C18",
   "status": "proved",
   "theorems": [
    "group_node_data_copied",
    "group_node_data_idempotent"
   ],
   "note": "Node groups only; group node_data must be a dictionary that does not set the module list."
  },
  {
   "property": "C19",
   "status": "proved",
   "theorems": [
    "group_device_module_copied",
    "most_specific_device_wins"
   ],
   "note": ""
  },
  {
   "property": "C20",
   "status": "proved",
   "theorems": [
    "node_config_exact",
    "config_template_survives_iff",
    "empty_template_name_refuted"
   ],
   "note": ""
  },
  {
   "property": "C21",
   "status": "proved",
   "theorems": [
    "merge_leaves",
    "merge_wf"
   ],
   "note": ""
  },
  {
   "property": "C22",
   "status": "proved",
   "theorems": [
    "merge_idempotent",
    "merge_absorbing",
    "merge_unit_left",
    "merge_unit_right",
    "merge_associative",
    "merge_associative_refuted"
   ],
   "note": ""
  },
  {
   "property": "C23",
   "status": "proved",
   "theorems": [
    "module_params_precedence",
    "module_params_idempotent"
   ],
   "note": "Precedence is stated per leaf: node values kept, every other leaf comes from a propagated topology, device or default attribute, and the first of them that says something about the path decides. Idempotence is equality of leaves. Parameters are assumed to be dictionaries."
  },
  {
   "property": "C24",
   "status": "proved",
   "theorems": [
    "effective_attribute_scalar",
    "effective_attribute_union",
    "effective_attribute_none",
    "effective_precedence_refuted"
   ],
   "note": "Precedence across types is refuted by effective_precedence_refuted (a node scalar replaces an interface dictionary)."
  },
  {
   "property": "C25",
   "status": "proved",
   "theorems": [
    "node_dependency_errors_exact",
    "topology_dependency_errors_exact",
    "checked_modules_closed",
    "module_sort_sound",
    "module_sort_fails_iff_cycle"
   ],
   "note": ""
  },
  {
   "property": "C26",
   "status": "proved",
   "theorems": [
    "mapping_roundtrip",
    "mapping_list_roundtrip",
    "mapping_to_dict_exact",
    "mapping_roundtrip_colon_refuted"
   ],
   "note": "a colon in the source path breaks the round trip (exhibited)"
  },
  {
   "property": "C27",
   "status": "proved",
   "theorems": [
    "env_key_injective",
    "env_key_expressible"
   ],
   "note": ""
  },
  {
   "property": "C28",
   "status": "proved",
   "theorems": [
    "make_id_chars",
    "make_id_keeps_ids",
    "make_id_valid",
    "make_id_idempotent",
    "make_id_valid_refuted",
    "make_id_injective_refuted"
   ],
   "note": ""
  },
  {
   "property": "C29",
   "status": "proved",
   "theorems": [
    "int_range_exact",
    "int_result_type",
    "int_range_string_refuted",
    "asn_int_exact",
    "asn_zero_refuted",
    "asdot_exact",
    "asdot_injective",
    "asn_result_range",
    "asn_string_exact",
    "asn_string_refuted"
   ],
   "note": ""
  },
  {
   "property": "C30",
   "status": "proved",
   "theorems": [
    "registration_stable",
    "conflict_aborts",
    "started_was_registered",
    "one_directory_per_lab",
    "one_directory_up_only",
    "one_directory_refuted",
    "foreign_registration_removed_refuted"
   ],
   "note": "Status file changes are single steps, justified by C31; one directory per lab id needs netlab down not to overlap other commands for the same lab id, otherwise refuted."
  },
  {
   "property": "C31",
   "status": "proved",
   "theorems": [
    "updates_exclusive",
    "updates_serialized",
    "update_not_lost",
    "torn_only_by_crash",
    "crash_destroys_status",
    "reset_lost_refuted"
   ],
   "note": "The operating system releases the file lock of a killed process; a partially written file is unreadable."
  },
  {
   "property": "C32",
   "status": "proved",
   "theorems": [
    "running_directory_locked",
    "running_directory_refused",
    "lock_race_refuted",
    "forced_down_refuted"
   ],
   "note": ""
  },
  {
   "property": "C33",
   "status": "proved",
   "theorems": [
    "vlan_ids_unique",
    "vlan_id_mismatch_reported",
    "vnis_unique",
    "vnis_kept",
    "vnis_assigned"
   ],
   "note": ""
  },
  {
   "property": "C34",
   "status": "proved",
   "theorems": [
    "vlan_mode_precedence"
   ],
   "note": ""
  },
  {
   "property": "C35",
   "status": "proved",
   "theorems": [
    "vrf_ids_unique",
    "vrf_rds_unique",
    "vrf_ids_assigned",
    "vrfs_present",
    "vrf_copies_global",
    "get_next_vrf_id_no_fuel",
    "vrf_statics_not_reserved_refuted"
   ],
   "note": "For runs without reported errors; static ids and RDs of node VRFs are not reserved when there are no global VRFs (witness)."
  },
  {
   "property": "C36",
   "status": "proved",
   "theorems": [
    "rt_default",
    "rt_inherited",
    "rt_explicit",
    "vrfs_isolated"
   ],
   "note": "For runs without reported errors."
  },
  {
   "property": "C37",
   "status": "proved",
   "theorems": [
    "vrf_indices_spec"
   ],
   "note": ""
  },
  {
   "property": "C38",
   "status": "proved",
   "theorems": [
    "transit_vnis_unique",
    "transit_vnis_all_unique",
    "transit_vnis_assigned",
    "vrf_transit_vni_total",
    "get_next_vni_total",
    "transit_vni_start_refuted",
    "transit_reference_order_refuted"
   ],
   "note": "Uniqueness needs no automatic VRF before a static VNI equal to the start value (witness)."
  },
  {
   "property": "C39",
   "status": "proved",
   "theorems": [
    "flood_list_exact",
    "flood_list_exists",
    "flood_lists_symmetric"
   ],
   "note": ""
  },
  {
   "property": "C40",
   "status": "proved",
   "theorems": [
    "ibgp_sessions_exact",
    "ibgp_neighbor_data",
    "ibgp_addresses",
    "ibgp_no_self",
    "ibgp_listed_once",
    "ibgp_symmetric",
    "ibgp_full_mesh",
    "ibgp_route_reflectors",
    "ibgp_symmetric_refuted"
   ],
   "note": "A node without usable endpoint address makes one-sided sessions (witness)."
  },
  {
   "property": "C41",
   "status": "proved",
   "theorems": [
    "ebgp_sessions_sound",
    "ebgp_unnumbered",
    "local_as_unsupported",
    "ebgp_sessions_complete",
    "ebgp_session_iff",
    "ebgp_symmetric",
    "ebgp_disabled_one_side_refuted",
    "ebgp_af_symmetric_refuted",
    "unnumbered_two_neighbors_refuted"
   ],
   "note": "Conditions of the symmetric decision are in the statement; their necessity is exhibited by witnesses."
  },
  {
   "property": "C42",
   "status": "proved",
   "theorems": [
    "as_list_applied"
   ],
   "note": ""
  },
  {
   "property": "C43",
   "status": "proved",
   "theorems": [
    "router_id_choice",
    "router_id_invalid",
    "router_ids_spec",
    "pool_router_ids_unique",
    "router_ids_unique_refuted"
   ],
   "note": "A pool address can be the loopback address of another node (witness)."
  },
  {
   "property": "C44",
   "status": "proved",
   "theorems": [
    "import_merged",
    "import_copied",
    "import_idempotent",
    "import_sorted_refuted",
    "normalized_entries",
    "default_sequence_unique_refuted"
   ],
   "note": "Lists that need no import stay unsorted and default sequence numbers can collide (witnesses)."
  },
  {
   "property": "C45",
   "status": "proved",
   "theorems": [
    "includes_expanded",
    "includes_succeed_iff",
    "include_loop_reported",
    "include_limit_refuted"
   ],
   "note": "The nesting limit is 19 (witness for 20)."
  },
  {
   "property": "C46",
   "status": "proved",
   "theorems": [
    "prefix_list_af",
    "prefix_list_range",
    "prefix_min_max_refuted"
   ],
   "note": "Per-family limits without a value for the family stay a dictionary (witness)."
  },
  {
   "property": "C47",
   "status": "proved",
   "theorems": [
    "lag_indices_increase",
    "mlag_index_not_on_links",
    "plain_side_indices",
    "lag_indices_unique",
    "lag_link_index",
    "mlag_indices_match",
    "lag_interface_index_refuted",
    "lag_link_index_refuted",
    "mlag_indices_refuted"
   ],
   "note": "Interface-level values, lower link-level values and MLAG pairs with different counters are exceptions (witnesses)."
  },
  {
   "property": "C48",
   "status": "proved",
   "theorems": [
    "mgmt_from_pool",
    "mgmt_configured_kept",
    "mgmt_errors",
    "mgmt_pool_unique",
    "mgmt_broadcast_refuted",
    "mgmt_macs_unique",
    "mgmt_duplicates_reported",
    "mgmt_duplicates_sound",
    "forwarded_ports_unique",
    "forwarded_ports_exact"
   ],
   "note": "IPv6 text is a parameter assumed injective; the broadcast address can be assigned (witness)."
  },
  {
   "property": "C49",
   "status": "proved",
   "theorems": [
    "search_path_exact",
    "search_path_order",
    "search_path_idempotent",
    "entry_plain",
    "entry_no_topology",
    "entry_topology",
    "entry_package",
    "entry_home",
    "dirname_spec",
    "entry_topology_refuted",
    "os_join_spec",
    "find_file_first",
    "find_file_none"
   ],
   "note": "File system functions (resolve, is_dir, exists, expanduser) are parameters; topologies from the package or without a directory are exceptions (witnesses)."
  },
  {
   "property": "C50",
   "status": "proved",
   "theorems": [
    "vle_spec",
    "versioned_topology_best",
    "version_str_parse",
    "versioned_topology_exists",
    "versioned_topology_refuted"
   ],
   "note": "Final releases only; a version with a leading zero selects a file that does not exist (witness)."
  },
  {
   "property": "C51",
   "status": "proved",
   "theorems": [
    "error_stops_at_checkpoint",
    "hint_printed_once",
    "hint_printed",
    "stops_iff",
    "completed_without_errors",
    "warnings_harmless",
    "repeat_warnings_refuted",
    "outputs_after_errors",
    "unknown_output_refuted"
   ],
   "note": "repeat_warnings grows the warning log and an unknown output format does not end netlab create (witnesses)."
  },
  {
   "property": "C52",
   "status": "proved",
   "theorems": [
    "device_inheritance_ends",
    "device_inheritance_exact",
    "device_settings_kept",
    "inherited_attribute"
   ],
   "note": "A device with a circular chain of parents keeps its own settings and the resolution terminates; no error is reported for the circle (the code does not check it)."
  },
  {
   "property": "C53",
   "status": "proved",
   "theorems": [
    "device_attribute_lookup",
    "consolidated_device_data"
   ],
   "note": ""
  },
  {
   "property": "C54",
   "status": "proved",
   "theorems": [
    "plugin_config_first",
    "extra_config_sorted",
    "extra_config_fails_iff"
   ],
   "note": ""
  },
  {
   "property": "C55",
   "status": "proved",
   "theorems": [
    "nodeset_exact",
    "nodeset_unique",
    "nodeset_order",
    "pruned_nodes",
    "nodeset_unique_refuted"
   ],
   "note": "fnmatch is a parameter; duplicates through nested groups (witness)."
  },
  {
   "property": "C56",
   "status": "proved",
   "theorems": [
    "bridge_names_unique",
    "bridge_name_fits",
    "bridge_name_too_long_refuted"
   ],
   "note": ""
  },
  {
   "property": "C57",
   "status": "proved",
   "theorems": [
    "default_link_type_accepted",
    "accepted_link_type_sound"
   ],
   "note": ""
  },
  {
   "property": "C58",
   "status": "proved",
   "theorems": [
    "ifname_check_exact"
   ],
   "note": ""
  },
  {
   "property": "C59",
   "status": "proved",
   "theorems": [
    "dotted_mapping_normalized",
    "list_mapping_accepted_iff",
    "shared_component_mapping_refuted"
   ],
   "note": "false for names sharing the first component (exhibited)"
  },
  {
   "property": "C60",
   "status": "proved",
   "theorems": [
    "type_test_frame",
    "type_test_sound",
    "type_test_decides",
    "type_test_missing",
    "type_test_idempotent",
    "validators_stable",
    "int_stable_refuted",
    "id_exact",
    "list_exact",
    "rd_exact",
    "rd_range_refuted",
    "net_exact"
   ],
   "note": ""
  },
  {
   "property": "C61",
   "status": "proved",
   "theorems": [
    "ipv4_address_exact",
    "ipv4_unique",
    "ipv4_id_converted",
    "ipv4_use_table",
    "ipv4_prefix_strict"
   ],
   "note": ""
  },
  {
   "property": "C62",
   "status": "proved",
   "theorems": [
    "status_update_effect",
    "providers_recorded",
    "status_change_logged"
   ],
   "note": ""
  },
  {
   "property": "C63",
   "status": "proved",
   "theorems": [
    "vrf_static_kept",
    "node_rd_kept_refuted",
    "empty_rd_generated_refuted"
   ],
   "note": "Exceptions named in the statement are exhibited by witnesses."
  },
  {
   "property": "C64",
   "status": "proved",
   "theorems": [
    "static_transit_registered",
    "auto_transit_vlan_vni_refuted"
   ],
   "note": ""
  },
  {
   "property": "C65",
   "status": "proved",
   "theorems": [
    "asym_vlans_reported",
    "asym_vlans_sound",
    "asym_vlans_exact_refuted"
   ],
   "note": ""
  },
  {
   "property": "C66",
   "status": "proved",
   "theorems": [
    "evpn_rd_unique",
    "evpn_rd_unique_refuted"
   ],
   "note": ""
  },
  {
   "property": "C67",
   "status": "proved",
   "theorems": [
    "rr_cluster_shared",
    "rr_cluster_kept",
    "rr_cluster_lowest_refuted"
   ],
   "note": ""
  },
  {
   "property": "C68",
   "status": "proved",
   "theorems": [
    "af_activated",
    "af_flag_spec",
    "activate_localas_refuted"
   ],
   "note": ""
  },
  {
   "property": "C69",
   "status": "proved",
   "theorems": [
    "ebgp_role_spec"
   ],
   "note": ""
  },
  {
   "property": "C70",
   "status": "proved",
   "theorems": [
    "vrf_router_ids_unique",
    "vrf_router_ids_end",
    "vrf_router_ids_kept"
   ],
   "note": ""
  },
  {
   "property": "C71",
   "status": "proved",
   "theorems": [
    "aspath_numbers"
   ],
   "note": ""
  },
  {
   "property": "C72",
   "status": "proved",
   "theorems": [
    "vrf_imports_removed",
    "vrf_default_imports",
    "vrf_imports_aware",
    "vrf_imports_not_aware",
    "inactive_protocol_not_imported",
    "inactive_rip_refuted",
    "import_not_vrf_aware_refuted"
   ],
   "note": "check_import_request is not modelled; RIP and unsupported devices are exceptions (witnesses)."
  },
  {
   "property": "C73",
   "status": "proved",
   "theorems": [
    "lag_sides_spec",
    "lag_side_choice",
    "lag_sides_refuted"
   ],
   "note": "1:3 and triangle LAGs are accepted (witnesses)."
  },
  {
   "property": "C74",
   "status": "proved",
   "theorems": [
    "mlag_peer_addresses",
    "mlag_macs_unique"
   ],
   "note": ""
  },
  {
   "property": "C75",
   "status": "proved",
   "theorems": [
    "ghost_buster_exact",
    "ghost_buster_links",
    "ghost_buster_refuted"
   ],
   "note": "Bridge name length check not modelled; artificial node counts are an exception (witness)."
  },
  {
   "property": "C76",
   "status": "proved",
   "theorems": [
    "igp_global_interfaces"
   ],
   "note": "Router ids, route imports, default routes and strict BFD are not part of this model."
  },
  {
   "property": "C77",
   "status": "proved",
   "theorems": [
    "igp_vrf_instances",
    "igp_node_order_refuted"
   ],
   "note": "Configured instances hold no interfaces before the transformation (vrfs_wf); the order of nodes matters (witness)."
  },
  {
   "property": "C78",
   "status": "proved",
   "theorems": [
    "igp_passive_and_type",
    "igp_network_type_valid",
    "igp_passive_agree"
   ],
   "note": ""
  },
  {
   "property": "C79",
   "status": "proved",
   "theorems": [
    "igp_address_families",
    "igp_module_kept",
    "isis_bfd_flag_disables_isis"
   ],
   "note": "isis.bfd: true without isis.af disables IS-IS."
  },
  {
   "property": "C80",
   "status": "proved",
   "theorems": [
    "bfd_interfaces",
    "bfd_without_module",
    "bfd_without_module_refuted",
    "isis_bfd_interfaces",
    "ospf_unnumbered_neighbors",
    "rip_timers"
   ],
   "note": "Interface-level BFD survives without the module (witness)."
  },
  {
   "property": "C81",
   "status": "proved",
   "theorems": [
    "gateway_where_wanted",
    "gateway_off_on_link",
    "gateway_no_warning",
    "gateway_no_crash"
   ],
   "note": "Gateway attributes are missing, flags or dictionaries, as enforced by the validation of attributes."
  },
  {
   "property": "C82",
   "status": "proved",
   "theorems": [
    "gateway_settings",
    "gateway_address_shared",
    "gateway_link_accepted"
   ],
   "note": ""
  },
  {
   "property": "C83",
   "status": "proved",
   "theorems": [
    "gateway_protocol_support",
    "gateway_module_removed",
    "gateway_interface_cleanup",
    "gateway_node_parameter_refuted"
   ],
   "note": "Node parameters do not override global defaults (witness)."
  },
  {
   "property": "C84",
   "status": "proved",
   "theorems": [
    "gateway_ids_reserved"
   ],
   "note": "VLANs defined in nodes are not scanned by the code."
  },
  {
   "property": "C85",
   "status": "proved",
   "theorems": [
    "mtu_effective",
    "mtu_no_redundant",
    "mtu_accepted",
    "mtu_limits",
    "mtu_ip_flag"
   ],
   "note": "MTU values are non-zero, as enforced by attribute validation (64 to 9216)."
  },
  {
   "property": "C86",
   "status": "proved",
   "theorems": [
    "node_af_exact"
   ],
   "note": ""
  },
  {
   "property": "C87",
   "status": "proved",
   "theorems": [
    "host_routes_exact",
    "host_routes_member",
    "host_default_routes",
    "host_routes_crash",
    "host_routes_crash_refuted"
   ],
   "note": "Two DHCP client interfaces of one address family crash the transformation (witness)."
  },
  {
   "property": "C88",
   "status": "proved",
   "theorems": [
    "daemon_config_exact"
   ],
   "note": ""
  },
  {
   "property": "C89",
   "status": "proved",
   "theorems": [
    "link_type_exact",
    "link_role_exact",
    "link_accepted",
    "link_default_type_accepted"
   ],
   "note": "Stub link conversion replaces explicit link types (example)."
  },
  {
   "property": "C90",
   "status": "proved",
   "theorems": [
    "unnumbered_checked",
    "unnumbered_parent",
    "ifname_length",
    "ifname_neighbors",
    "ifname_single"
   ],
   "note": ""
  },
  {
   "property": "C91",
   "status": "proved",
   "theorems": [
    "dhcp_client_interfaces",
    "dhcp_client_effects",
    "dhcp_subnets",
    "dhcp_irb_client_refuted"
   ],
   "note": "dhcp_irb_client_refuted: an explicit DHCP client on a bridged or IRB VLAN interface is ignored when the link also asks for DHCP clients."
  },
  {
   "property": "C92",
   "status": "proved",
   "theorems": [
    "dhcp_support_exact",
    "dhcp_support_reports",
    "dhcp_client_addresses",
    "dhcp_disabled_client_refuted"
   ],
   "note": "dhcp_disabled_client_refuted: a client setting of False still requires device support."
  },
  {
   "property": "C93",
   "status": "proved",
   "theorems": [
    "dhcp_relay_targets"
   ],
   "note": ""
  },
  {
   "property": "C94",
   "status": "proved",
   "theorems": [
    "dhcp_pool_exists",
    "dhcp_pool_excluded",
    "dhcp_pool_prefix",
    "dhcp_pool_gateway",
    "dhcp_pool_name",
    "dhcp_pool_vrf",
    "dhcp_pool_names_refuted"
   ],
   "note": "dhcp_pool_names_refuted: link names that map to the same identifier share one pool; the second prefix is lost, with an error."
  },
  {
   "property": "C95",
   "status": "proved",
   "theorems": [
    "object_attributes_reported",
    "flag_list_exact",
    "object_attributes_kept",
    "validation_error_paths",
    "dictionary_keys_reported",
    "nested_values_validated"
   ],
   "note": "Error texts are reduced to kind and path; data types are parameters of the model. dictionary_keys_reported and nested_values_validated assume that the dictionary type accepts dictionaries unchanged."
  },
  {
   "property": "C96",
   "status": "proved",
   "theorems": [
    "validated_conforms",
    "required_flag_exact",
    "exclusion_exact",
    "conflicts_reported",
    "empty_dictionary_refuted",
    "empty_module_refuted",
    "zero_key_refuted"
   ],
   "note": "The refuted theorems are witnesses for data accepted without required attributes."
  },
  {
   "property": "C97",
   "status": "proved",
   "theorems": [
    "namespaces_exact",
    "namespaces_cycle_fatal"
   ],
   "note": "The code gives up after 100 steps; namespaces_exact covers the results it returns."
  },
  {
   "property": "C98",
   "status": "proved",
   "theorems": [
    "valid_attributes_spec",
    "valid_attributes_names",
    "valid_attributes_pure",
    "valid_attributes_pure_refuted",
    "object_attributes_exact"
   ],
   "note": "valid_attributes_pure_refuted: the _required flags are removed from the attribute definitions themselves."
  },
  {
   "property": "C99",
   "status": "proved",
   "theorems": [
    "simple_value_exact",
    "definition_shortcuts_exact",
    "object_values_validated",
    "list_elements_exact"
   ],
   "note": ""
  },
  {
   "property": "C100",
   "status": "proved",
   "theorems": [
    "validation_terminates",
    "validation_fuel",
    "false_value_crash",
    "validation_terminates_refuted"
   ],
   "note": "validation_terminates_refuted: a definition for which no amount of recursion suffices (no definition of netlab is like that)."
  },
  {
   "property": "C101",
   "status": "proved",
   "theorems": [
    "static_routes_independent"
   ],
   "note": ""
  },
  {
   "property": "C102",
   "status": "proved",
   "theorems": [
    "node_nexthops_exact",
    "address_nexthops_exact",
    "nexthop_vrf_exact",
    "cp_endpoint_exact",
    "cp_endpoint_unique",
    "list_address_exact"
   ],
   "note": ""
  },
  {
   "property": "C103",
   "status": "proved",
   "theorems": [
    "gateway_nexthops_exact",
    "last_resort_exact",
    "gw_cache",
    "gateway_warning_only_missing"
   ],
   "note": ""
  },
  {
   "property": "C104",
   "status": "proved",
   "theorems": [
    "static_routes_usable",
    "static_routes_origin",
    "static_routes_kept",
    "static_routes_kept_refuted"
   ],
   "note": "static_routes_kept_refuted: the dual-stack route with one directly connected and one indirect next hop. The include requests are already expanded; next hops given by node or gateway have no addresses of their own."
  },
  {
   "property": "C105",
   "status": "proved",
   "theorems": [
    "vrf_routes_checked",
    "host_routes_quiet",
    "static_routes_no_exception",
    "static_routes_exception_refuted"
   ],
   "note": "static_routes_exception_refuted: three configurations ending with an exception."
  },
  {
   "property": "C106",
   "status": "proved",
   "theorems": [
    "one_svi_per_vlan",
    "svi_order"
   ],
   "note": ""
  },
  {
   "property": "C107",
   "status": "proved",
   "theorems": [
    "svi_data",
    "svi_addresses_refuted",
    "svi_bridge_address_refuted"
   ],
   "note": "svi_addresses_refuted and svi_bridge_address_refuted: lost addresses of further ports, and addresses of bridge-mode VLAN interfaces."
  },
  {
   "property": "C108",
   "status": "proved",
   "theorems": [
    "svi_index_exact",
    "svi_index_distinct",
    "svi_index_refuted"
   ],
   "note": "svi_index_refuted: the VLAN with a link type."
  },
  {
   "property": "C109",
   "status": "proved",
   "theorems": [
    "bridge_groups_exact",
    "bridge_groups_distinct"
   ],
   "note": ""
  },
  {
   "property": "C110",
   "status": "proved",
   "theorems": [
    "ports_exact"
   ],
   "note": ""
  },
  {
   "property": "C111",
   "status": "proved",
   "theorems": [
    "svi_abort_exact",
    "no_svi_device"
   ],
   "note": ""
  },
  {
   "property": "C112",
   "status": "proved",
   "theorems": [
    "vlan_neighbors_exact",
    "vlan_neighbors_refuted"
   ],
   "note": "vlan_neighbors_refuted: the node connected twice to a link."
  },
  {
   "property": "C113",
   "status": "proved",
   "theorems": [
    "svi_neighbors_complete",
    "svi_neighbors_refuted",
    "svi_stub_exact",
    "neighbor_names_exact",
    "other_nodes_unrenamed"
   ],
   "note": "svi_neighbors_refuted: the node with a VLAN interface and a routed subinterface in one VLAN. Only VLANs defined globally; the last entry for a node is described."
  },
  {
   "property": "C114",
   "status": "proved",
   "theorems": [
    "trunk_ids_exact"
   ],
   "note": ""
  },
  {
   "property": "C115",
   "status": "proved",
   "theorems": [
    "subinterfaces_exact",
    "subinterfaces_unsupported"
   ],
   "note": ""
  },
  {
   "property": "C116",
   "status": "proved",
   "theorems": [
    "mixed_trunks_exact",
    "routed_native_exact",
    "mixed_native_exact"
   ],
   "note": ""
  },
  {
   "property": "C117",
   "status": "proved",
   "theorems": [
    "interface_list_exact",
    "link_object_exact",
    "link_unknown_node_refuted"
   ],
   "note": "link_unknown_node_refuted: unknown nodes accepted in the string and dictionary forms."
  },
  {
   "property": "C118",
   "status": "proved",
   "theorems": [
    "link_list_exact",
    "links_init_exact",
    "linkindex_exact",
    "group_member_becomes_link",
    "group_members_refuted",
    "links_init_exception"
   ],
   "note": "group_members_refuted: disabled and nested group members."
  },
  {
   "property": "C119",
   "status": "proved",
   "theorems": [
    "components_exact"
   ],
   "note": ""
  },
  {
   "property": "C120",
   "status": "proved",
   "theorems": [
    "included_nodes_exact",
    "included_name_limit",
    "included_name_attribute"
   ],
   "note": "The documentation says that a larger MAX_NODE_ID_LENGTH allows longer names of included nodes; the check of included names always uses 16."
  },
  {
   "property": "C121",
   "status": "proved",
   "theorems": [
    "included_group_exact",
    "included_nodes_grouped",
    "request_attribute_refuted"
   ],
   "note": "request_attribute_refuted: an attribute of the component lost because the request has an attribute with the same name."
  },
  {
   "property": "C122",
   "status": "proved",
   "theorems": [
    "includes_well_founded",
    "includes_terminate",
    "self_include_refuted"
   ],
   "note": "self_include_refuted: the component that includes itself runs out of any fuel (unbounded recursion)."
  },
  {
   "property": "C123",
   "status": "proved",
   "theorems": [
    "node_dict_exact",
    "node_list_exact",
    "node_string_refuted"
   ],
   "note": "node_string_refuted: a string instead of a list of nodes."
  },
  {
   "property": "C124",
   "status": "proved",
   "theorems": [
    "components_accepted",
    "component_definitions_exact",
    "component_node_limit"
   ],
   "note": ""
  },
  {
   "property": "C125",
   "status": "proved",
   "theorems": [
    "mpls_settings_exact"
   ],
   "note": ""
  },
  {
   "property": "C126",
   "status": "proved",
   "theorems": [
    "ldp_exact",
    "ldp_flag_exception",
    "ldp_no_ipv4",
    "ldp_flag_refuted"
   ],
   "note": "ldp_flag_refuted: LDP stays enabled with mpls.ldp set to False; the value True ends in an exception, also in a VRF."
  },
  {
   "property": "C127",
   "status": "proved",
   "theorems": [
    "labels_exact",
    "mpls_parameter_errors",
    "mpls_neighbors_exact",
    "labels_refuted"
   ],
   "note": "labels_refuted: an empty list for one address family disables labels for the other one without an error."
  },
  {
   "property": "C128",
   "status": "proved",
   "theorems": [
    "vpn_exact",
    "mpls_parameter_errors",
    "mpls_neighbors_exact",
    "vpn_session_refuted"
   ],
   "note": "vpn_session_refuted: VPN address family on an EBGP session although only IBGP is listed."
  },
  {
   "property": "C129",
   "status": "proved",
   "theorems": [
    "sixpe_exact",
    "sixpe_symmetric",
    "sixpe_errors",
    "mpls_neighbors_exact",
    "sixpe_refuted"
   ],
   "note": "sixpe_refuted: an IPv6 session removed on one end only; an unknown session type."
  },
  {
   "property": "C130",
   "status": "proved",
   "theorems": [
    "features_exact",
    "mpls_features_reported",
    "ldp_support_unchecked",
    "sixpe_feature_refuted"
   ],
   "note": "ldp_support_unchecked, sixpe_feature_refuted: missing and spurious feature errors."
  },
  {
   "property": "C131",
   "status": "proved",
   "theorems": [
    "link_vlan_errors_exact",
    "link_vlans_collected"
   ],
   "note": ""
  },
  {
   "property": "C132",
   "status": "proved",
   "theorems": [
    "link_rules_exact",
    "link_rules_refuted"
   ],
   "note": "link_rules_refuted: the loop in validate_link_vlan_attributes that should check them tests the wrong dictionary and never runs."
  },
  {
   "property": "C133",
   "status": "proved",
   "theorems": [
    "trunk_vlans_exact"
   ],
   "note": ""
  },
  {
   "property": "C134",
   "status": "proved",
   "theorems": [
    "trunk_links_exact",
    "trunk_link_nodes",
    "trunk_links_created",
    "member_type_refuted"
   ],
   "note": "member_type_refuted: a global VLAN with a type and an attribute that is also in the trunk."
  },
  {
   "property": "C135",
   "status": "proved",
   "theorems": [
    "access_link_exact",
    "access_vlan_refuted"
   ],
   "note": "access_vlan_refuted: two set orders give two prefixes."
  },
  {
   "property": "C136",
   "status": "proved",
   "theorems": [
    "loopback_links_exact",
    "loopback_prefix_refuted"
   ],
   "note": "loopback_prefix_refuted: a node VLAN with a prefix."
  },
  {
   "property": "C137",
   "status": "proved",
   "theorems": [
    "test_entry_accepted",
    "device_support_exact",
    "supported_device_tested",
    "unsupported_device_never_passes"
   ],
   "note": ""
  },
  {
   "property": "C138",
   "status": "proved",
   "theorems": [
    "plain_attempt",
    "plugin_attempt",
    "command_attempt",
    "suzieq_attempt",
    "wait_attempt",
    "suzieq_failure_refuted",
    "show_failure_not_retried_refuted"
   ],
   "note": "suzieq_failure_refuted, show_failure_not_retried_refuted, command_attempt: where the outcome differs from the documentation."
  },
  {
   "property": "C139",
   "status": "proved",
   "theorems": [
    "attempts_per_node",
    "test_result",
    "retry_terminates",
    "retry_fuel_irrelevant",
    "retry_forever"
   ],
   "note": ""
  },
  {
   "property": "C140",
   "status": "proved",
   "theorems": [
    "attempt_counted",
    "counters_change",
    "plain_counters"
   ],
   "note": ""
  },
  {
   "property": "C141",
   "status": "proved",
   "theorems": [
    "exit_zero",
    "exit_code_exact",
    "stop_on_error_stops",
    "exit_zero_passed_refuted",
    "stop_on_warning_refuted"
   ],
   "note": "exit_zero_passed_refuted, stop_on_warning_refuted: runs that contradict the documented exit codes."
  },
  {
   "property": "C142",
   "status": "proved",
   "theorems": [
    "suzieq_records",
    "suzieq_any_refuted"
   ],
   "note": "suzieq_any_refuted: two records, one of them passes."
  },
  {
   "property": "C143",
   "status": "proved",
   "theorems": [
    "wait_exact",
    "wait_without_start",
    "first_wait_extended",
    "device_wait_extended",
    "skip_wait_exact",
    "wait_deadline_exact",
    "retry_time_ignores_start"
   ],
   "note": "retry_time_ignores_start: the refuted part."
  },
  {
   "property": "C144",
   "status": "proved",
   "theorems": [
    "tests_by_name",
    "tests_by_node",
    "selected_tests_order"
   ],
   "note": ""
  },
  {
   "property": "C145",
   "status": "proved",
   "theorems": [
    "clone_link_exact",
    "clone_links_exact",
    "cloned_node_gone",
    "clone_links_count",
    "clone_full_mesh",
    "clone_lag_member_lost_refuted",
    "clone_lag_port_refuted"
   ],
   "note": "clone_lag_member_lost_refuted, clone_lag_port_refuted: the refuted parts."
  },
  {
   "property": "C146",
   "status": "proved",
   "theorems": [
    "clone_node_exact",
    "clone_node_links",
    "clone_override",
    "clone_rejected",
    "clone_groups",
    "expanded_nodes"
   ],
   "note": "clone_override: one clone whose name has data in the topology."
  },
  {
   "property": "C147",
   "status": "proved",
   "theorems": [
    "default_names_distinct",
    "default_names_nodup",
    "clone_ids_distinct",
    "clone_names_collide_refuted",
    "clone_own_name_refuted"
   ],
   "note": "clone_names_collide_refuted, clone_own_name_refuted: the refuted parts."
  },
  {
   "property": "C148",
   "status": "proved",
   "theorems": [
    "fabric_nodes_exact",
    "fabric_full_mesh",
    "fabric_added",
    "fabric_same_names_refuted"
   ],
   "note": "fabric_same_names_refuted: the refuted part. The theorem about links excludes a node named interfaces."
  },
  {
   "property": "C149",
   "status": "proved",
   "theorems": [
    "fabric_params_split",
    "fabric_groups_exact",
    "fabric_one_group",
    "fabric_one_group_refuted"
   ],
   "note": "fabric_one_group_refuted: the refuted part. fabric_groups_exact: the parameters of the layers have no members attribute."
  },
  {
   "property": "C150",
   "status": "proved",
   "theorems": [
    "session_attributes_exact",
    "session_errors_exact",
    "session_clear_exact",
    "session_interface_off_refuted"
   ],
   "note": "session_interface_off_refuted: the refuted part. Hypotheses: every applied attribute is a session attribute of the plugin, interface indexes are distinct."
  },
  {
   "property": "C151",
   "status": "proved",
   "theorems": [
    "tcpao_secrets_exact",
    "bfd_requests_exact",
    "session_checks_complete"
   ],
   "note": ""
  },
  {
   "property": "C152",
   "status": "proved",
   "theorems": [
    "route_server_sessions",
    "route_server_client_exact",
    "route_server_order_refuted",
    "route_server_one_sided_refuted"
   ],
   "note": "route_server_order_refuted, route_server_one_sided_refuted: the refuted parts. The client attribute of a node and the errors for devices that cannot be clients are described for one route server session."
  },
  {
   "property": "C153",
   "status": "proved",
   "theorems": [
    "default_sources_exact",
    "default_files_recorded",
    "defaults_first_wins",
    "defaults_used",
    "topology_defaults_kept",
    "environment_wins",
    "environment_ignored",
    "environment_fails_iff",
    "disabled_sources_refuted",
    "hidden_defaults_refuted"
   ],
   "note": "disabled_sources_refuted, hidden_defaults_refuted: the refuted parts."
  },
  {
   "property": "C154",
   "status": "proved",
   "theorems": [
    "include_value",
    "included_file_value",
    "own_value_kept",
    "top_values_merged",
    "include_ok_iff",
    "include_removed",
    "read_clean",
    "read_fuel_enough",
    "include_replaces_refuted"
   ],
   "note": "include_replaces_refuted: the refuted part. Included files are read with fuel; read_fuel_enough: the result does not depend on it once reading succeeds."
  },
  {
   "property": "C155",
   "status": "proved",
   "theorems": [
    "cli_value_exact",
    "setting_applied",
    "setting_refused_iff",
    "cli_provider_applied",
    "cli_plugins_appended",
    "provider_errors_exact",
    "provider_adjusted",
    "provider_order",
    "cli_arguments_order",
    "setting_equals_refuted"
   ],
   "note": "setting_equals_refuted: the refuted part."
  },
  {
   "property": "C156",
   "status": "proved",
   "theorems": [
    "plugin_defaults_order",
    "plugins_missing_exact",
    "plugins_loaded",
    "plugin_loop_iff",
    "plugin_defaults_kept",
    "plugin_redirected",
    "requirements_exact",
    "plugin_twice_refuted"
   ],
   "note": "plugin_twice_refuted: the refuted part. The theorems about several plugins have no redirected plugins; plugin_redirected: one plugin. The order is described for two or more plugins."
  },
  {
   "property": "C157",
   "status": "proved",
   "theorems": [
    "datatypes_copied",
    "attributes_adjusted",
    "definitions_copied",
    "definition_errors",
    "definition_errors_only",
    "copy_chain_refuted"
   ],
   "note": "copy_chain_refuted: the refuted part."
  },
  {
   "property": "C158",
   "status": "proved",
   "theorems": [
    "paths_adjusted_exact",
    "search_paths_exact",
    "other_paths_kept",
    "path_string_refuted"
   ],
   "note": "path_string_refuted: the refuted part. Hypothesis: the adjustments have no prepend or append of their own."
  },
  {
   "property": "C159",
   "status": "proved",
   "theorems": [
    "port_types_exact",
    "stp_crash_iff"
   ],
   "note": "Hypothesis: an interface with an empty list of neighbors has no saved neighbors."
  },
  {
   "property": "C160",
   "status": "proved",
   "theorems": [
    "stp_errors_exact",
    "node_protocol_refuted"
   ],
   "note": "node_protocol_refuted: the refuted part."
  },
  {
   "property": "C161",
   "status": "proved",
   "theorems": [
    "bond_interfaces_exact",
    "bond_members_exact"
   ],
   "note": "Neighbors are described by node names; see C162 for the names of their interfaces."
  },
  {
   "property": "C162",
   "status": "proved",
   "theorems": [
    "bond_neighbor_names_exact",
    "link_names_exact",
    "bond_events_exact",
    "bond_name_refuted"
   ],
   "note": "bond_name_refuted: the refuted part. The template for names depends on the interface index only."
  },
  {
   "property": "C163",
   "status": "proved",
   "theorems": [
    "sessions_exact",
    "multihop_errors_exact",
    "session_index_refuted",
    "multihop_value_refuted"
   ],
   "note": "session_index_refuted and multihop_value_refuted: the refuted parts. The bgp attribute is absent or a dictionary; expansion and validation of sessions are outside of the model."
  },
  {
   "property": "C164",
   "status": "proved",
   "theorems": [
    "activation_exact",
    "dual_transport_refuted"
   ],
   "note": "dual_transport_refuted: the refuted part."
  },
  {
   "property": "C165",
   "status": "proved",
   "theorems": [
    "loopbacks_exact"
   ],
   "note": ""
  },
  {
   "property": "C166",
   "status": "proved",
   "theorems": [
    "cleanup_exact",
    "support_exact",
    "vrf_cleanup_refuted"
   ],
   "note": "vrf_cleanup_refuted: the refuted part."
  },
  {
   "property": "C167",
   "status": "proved",
   "theorems": [
    "policy_neighbor_exact",
    "node_locpref_exact",
    "zero_attribute_refuted"
   ],
   "note": "zero_attribute_refuted: the refuted part. Hypothesis: policy is not an attribute name. Import and validation of named policies are given from outside."
  },
  {
   "property": "C168",
   "status": "proved",
   "theorems": [
    "map_name_unique",
    "policy_node_exact",
    "policy_maps_exact",
    "policy_clear_exact",
    "extended_communities_exact",
    "extended_communities_refuted"
   ],
   "note": "extended_communities_refuted: the refuted part. extended_communities_exact: nodes with a list of EBGP communities."
  },
  {
   "property": "C169",
   "status": "proved",
   "theorems": [
    "policy_errors_exact",
    "policy_node_exact",
    "routing_order_refuted"
   ],
   "note": "routing_order_refuted: the refuted part. Every error is reported every time in the model, netlab reports some of them once per node."
  },
  {
   "property": "C170",
   "status": "proved",
   "theorems": [
    "domain_sessions_exact",
    "domain_sessions_symmetric",
    "domain_errors_exact",
    "domain_crash_iff",
    "domain_name_refuted"
   ],
   "note": "domain_name_refuted: the refuted part."
  },
  {
   "property": "C171",
   "status": "proved",
   "theorems": [
    "originate_exact",
    "originate_indexes"
   ],
   "note": ""
  },
  {
   "property": "C172",
   "status": "proved",
   "theorems": [
    "vtep_links_exact",
    "vtep_links_count",
    "vtep_address_shared"
   ],
   "note": "Hypothesis of vtep_address_shared: allocated addresses are different."
  },
  {
   "property": "C173",
   "status": "proved",
   "theorems": [
    "check_config_kept",
    "check_config_warnings",
    "check_config_refuted"
   ],
   "note": "check_config_refuted: the refuted part. Search for template files is given from outside."
  },
  {
   "property": "C174",
   "status": "proved",
   "theorems": [
    "proxy_arp_exact"
   ],
   "note": ""
  },
  {
   "property": "C175",
   "status": "proved",
   "theorems": [
    "hex_exact",
    "locator_exact",
    "locators_disjoint",
    "srv6_exact",
    "srv6_refuted"
   ],
   "note": "srv6_refuted: the refuted part. IPv6 zone identifiers are not modelled."
  },
  {
   "property": "C176",
   "status": "proved",
   "theorems": [
    "primary_exact",
    "primary_nodes_kept",
    "primary_unused_refuted"
   ],
   "note": "primary_unused_refuted: the refuted part."
  },
  {
   "property": "C177",
   "status": "proved",
   "theorems": [
    "provider_topology_exact"
   ],
   "note": "Creation of files and other processing of secondary providers is not modelled."
  },
  {
   "property": "C178",
   "status": "proved",
   "theorems": [
    "mgmt_errors_exact"
   ],
   "note": "Addresses and prefixes are numbers with prefix lengths; parsing is not modelled."
  },
  {
   "property": "C179",
   "status": "proved",
   "theorems": [
    "auto_create_exact"
   ],
   "note": "Checks of groups before the creation are given as successful."
  },
  {
   "property": "C180",
   "status": "proved",
   "theorems": [
    "node_groups_exact"
   ],
   "note": ""
  },
  {
   "property": "C181",
   "status": "proved",
   "theorems": [
    "as_groups_exact",
    "as_errors_exact"
   ],
   "note": "Parsing of AS numbers is given from outside."
  },
  {
   "property": "C182",
   "status": "proved",
   "theorems": [
    "export_exact"
   ],
   "note": "Objects and attributes only; export is modelled for one namespace."
  },
  {
   "property": "C183",
   "status": "proved",
   "theorems": [
    "advertise_exact"
   ],
   "note": "bgp attributes of interfaces are missing, False or dictionaries."
  },
  {
   "property": "C184",
   "status": "proved",
   "theorems": [
    "originate_af_exact"
   ],
   "note": ""
  },
  {
   "property": "C185",
   "status": "proved",
   "theorems": [
    "community_exact",
    "community_table_exact"
   ],
   "note": "Keywords are lists of texts per session type; validation in check_bgp_parameters is not modelled."
  },
  {
   "property": "C186",
   "status": "proved",
   "theorems": [
    "ebgp_roles_exact"
   ],
   "note": ""
  },
  {
   "property": "C187",
   "status": "proved",
   "theorems": [
    "vrf_af_exact"
   ],
   "note": ""
  },
  {
   "property": "C188",
   "status": "proved",
   "theorems": [
    "vrf_unused_exact"
   ],
   "note": ""
  },
  {
   "property": "C189",
   "status": "proved",
   "theorems": [
    "leaking_exact"
   ],
   "note": ""
  },
  {
   "property": "C190",
   "status": "proved",
   "theorems": [
    "vrf_loopbacks_exact",
    "loopback_vrfs_exact",
    "loop_idx_exact"
   ],
   "note": "parse_prefix, pool allocation, interface naming and IPv6 address arithmetic are parameters; devices with loopback_interface_name."
  },
  {
   "property": "C191",
   "status": "proved",
   "theorems": [
    "setup_prefixes_exact",
    "named_prefix_stable"
   ],
   "note": "The prefixes of pools are a parameter, networks are texts."
  },
  {
   "property": "C192",
   "status": "proved",
   "theorems": [
    "parse_prefix_exact",
    "parse_text_exact"
   ],
   "note": "The ipaddress library is a parameter."
  },
  {
   "property": "C193",
   "status": "proved",
   "theorems": [
    "link_prefix_exact"
   ],
   "note": "parse_prefix is a parameter; the gateway part is described with set_fhrp_gateway (C194)."
  },
  {
   "property": "C194",
   "status": "proved",
   "theorems": [
    "set_gateway_exact"
   ],
   "note": ""
  },
  {
   "property": "C195",
   "status": "proved",
   "theorems": [
    "unnumbered_exact",
    "unnumbered_link_exact",
    "assign_addresses_exact",
    "assign_no_prefix"
   ],
   "note": "Allocation functions, the default policy and the host-bit check are parameters (modelled in Ipam_Model)."
  },
  {
   "property": "C196",
   "status": "proved",
   "theorems": [
    "cleanup_link_exact"
   ],
   "note": ""
  },
  {
   "property": "C197",
   "status": "proved",
   "theorems": [
    "check_import_exact",
    "import_no_policy_exact",
    "import_unsupported",
    "import_policy_refuted"
   ],
   "note": "import_policy_refuted: exception with a feature set to True; no device in the repository uses that value. Adding a policy to the node is recorded by its name only."
  },
  {
   "property": "C198",
   "status": "proved",
   "theorems": [
    "default_route_exact"
   ],
   "note": "Protocol data that are not dictionaries are not considered. Adding a policy to the node is recorded by its name only."
  },
  {
   "property": "C199",
   "status": "proved",
   "theorems": [
    "vrf_support_exact",
    "remove_blocks_exact"
   ],
   "note": ""
  },
  {
   "property": "C200",
   "status": "proved",
   "theorems": [
    "intf_support_exact",
    "intf_vrf_support_refuted"
   ],
   "note": "Refuted for VRF interfaces (literal 'proto' in igp_interfaces); the exact theorem describes the code as it is."
  },
  {
   "property": "C201",
   "status": "proved",
   "theorems": [
    "copy_node_exact"
   ],
   "note": "VRF module data are dictionaries or False (True is rejected by attribute validation)."
  },
  {
   "property": "C202",
   "status": "proved",
   "theorems": [
    "node_provider_exact"
   ],
   "note": ""
  },
  {
   "property": "C203",
   "status": "proved",
   "theorems": [
    "node_device_accepted",
    "node_device_data_exact"
   ],
   "note": ""
  },
  {
   "property": "C204",
   "status": "proved",
   "theorems": [
    "node_image_exact"
   ],
   "note": ""
  },
  {
   "property": "C205",
   "status": "proved",
   "theorems": [
    "provider_pass_exact",
    "forced_provider_checked_refuted"
   ],
   "note": "The claim that every accepted node ends up with a compatible provider is refuted by a witness: the provider set by a device is never checked."
  },
  {
   "property": "C206",
   "status": "proved",
   "theorems": [
    "device_data_copied_exact"
   ],
   "note": ""
  },
  {
   "property": "C207",
   "status": "proved",
   "theorems": [
    "loopback_exact",
    "loopback_families_exact",
    "loopback_families_refuted"
   ],
   "note": "Other pool settings (prefix6) become address families of nodes: refuted by a witness, proved for pools made of addresses only."
  },
  {
   "property": "C208",
   "status": "proved",
   "theorems": [
    "node_modules_exact",
    "supported_devices_exact"
   ],
   "note": ""
  },
  {
   "property": "C209",
   "status": "proved",
   "theorems": [
    "global_params_exact"
   ],
   "note": ""
  },
  {
   "property": "C210",
   "status": "proved",
   "theorems": [
    "reordered_modules_exact"
   ],
   "note": ""
  },
  {
   "property": "C211",
   "status": "proved",
   "theorems": [
    "evpn_sessions_exact",
    "evpn_sessions_crash"
   ],
   "note": ""
  },
  {
   "property": "C212",
   "status": "proved",
   "theorems": [
    "evpn_asn_exact"
   ],
   "note": ""
  },
  {
   "property": "C213",
   "status": "proved",
   "theorems": [
    "vlan_services_exact",
    "vlan_bundles_exact",
    "vlan_service_new_vrfs",
    "vlan_service_errors_exact",
    "bundle_needs_global_vrf_refuted"
   ],
   "note": "The error for VLANs of a VRF that is not global cannot be reported: refuted by a witness."
  },
  {
   "property": "C214",
   "status": "proved",
   "theorems": [
    "vrf_evi_exact",
    "node_vrf_attributes_exact",
    "node_evpn_copied_exact",
    "node_evpn_trimmed_exact"
   ],
   "note": ""
  },
  {
   "property": "C215",
   "status": "proved",
   "theorems": [
    "irb_errors_exact",
    "bundle_errors_exact"
   ],
   "note": ""
  },
  {
   "property": "C216",
   "status": "proved",
   "theorems": [
    "support_lists_exact",
    "support_lists_others",
    "device_features_exact",
    "support_stops_exact"
   ],
   "note": ""
  },
  {
   "property": "C217",
   "status": "proved",
   "theorems": [
    "daemons_exact",
    "device_checks_exact",
    "device_definitions_exact"
   ],
   "note": ""
  },
  {
   "property": "C218",
   "status": "proved",
   "theorems": [
    "tools_exact",
    "unknown_tool_reported_refuted",
    "default_runtime_used_refuted"
   ],
   "note": "That unknown tools are always reported and that default runtimes are used is refuted by witnesses; the exact behaviour is proved."
  },
  {
   "property": "C219",
   "status": "proved",
   "theorems": [
    "junos_units_exact",
    "junos_names_distinct",
    "junos_vlan_exact",
    "junos_copy_names"
   ],
   "note": ""
  },
  {
   "property": "C220",
   "status": "proved",
   "theorems": [
    "multiple_loopbacks_exact",
    "one_loopback_per_table_refuted"
   ],
   "note": "That one loopback per routing table is never reported is refuted by a VRF called default; the exact counts are proved."
  },
  {
   "property": "C221",
   "status": "proved",
   "theorems": [
    "tagged_vlan_1_exact",
    "reserved_vlans_exact",
    "added_native_unused",
    "added_native_unused_nxos",
    "added_native_unused_refuted"
   ],
   "note": "The added native VLAN is unused when the range check is active; refuted by a witness otherwise."
  },
  {
   "property": "C222",
   "status": "proved",
   "theorems": [
    "nvue_stp_exact",
    "nvue_check_stp_clean",
    "nvue_node_protocol_refuted",
    "nvue_mixed_exact",
    "shared_vtep_exact",
    "shared_vtep_mutual"
   ],
   "note": "The STP protocol of the node is ignored (refuted by a witness); the exact reports are proved."
  },
  {
   "property": "C223",
   "status": "proved",
   "theorems": [
    "mpls_bundle_exact",
    "ceos_old_exact",
    "ceos_version_order_refuted",
    "ceos_untagged_old"
   ],
   "note": "Correct order of versions is proved for two-digit minor and one-digit patch numbers and refuted in general."
  },
  {
   "property": "C224",
   "status": "proved",
   "theorems": [
    "pool_prefix_exact",
    "setup_pools_exact",
    "setup_pools_names",
    "legacy_pools_exact",
    "setup_pools_errors",
    "pool_normalized_once",
    "ipv6_only_pool_refuted"
   ],
   "note": "That a pool keeps only the address families of its definition is refuted by a witness; the exact result is proved."
  },
  {
   "property": "C225",
   "status": "proved",
   "theorems": [
    "pool_cleanup_exact"
   ],
   "note": ""
  },
  {
   "property": "C226",
   "status": "proved",
   "theorems": [
    "paths_exact",
    "paths_fail_exact",
    "single_file_name_refuted"
   ],
   "note": "That single file names are kept is refuted by a witness; the exact conversion and its failures are proved."
  },
  {
   "property": "C227",
   "status": "proved",
   "theorems": [
    "group_attributes_moved",
    "group_data_merged_refuted"
   ],
   "note": "That node_data and group settings are merged is refuted by a witness; the exact move is proved."
  },
  {
   "property": "C228",
   "status": "proved",
   "theorems": [
    "group_checks_exact",
    "group_results_exact"
   ],
   "note": ""
  },
  {
   "property": "C229",
   "status": "proved",
   "theorems": [
    "bgp_parameters_exact"
   ],
   "note": ""
  },
  {
   "property": "C230",
   "status": "proved",
   "theorems": [
    "session_validation_exact",
    "session_types_valid_refuted"
   ],
   "note": "That a true result means valid session types is refuted by a witness; the exact meaning of the result and of the reports is proved."
  },
  {
   "property": "C231",
   "status": "proved",
   "theorems": [
    "link_interface_check_exact"
   ],
   "note": ""
  },
  {
   "property": "C232",
   "status": "proved",
   "theorems": [
    "vlan_cleanup_exact",
    "vlan_cleanup_stable",
    "node_vlan_cleanup"
   ],
   "note": ""
  },
  {
   "property": "C233",
   "status": "proved",
   "theorems": [
    "isis_unnumbered_exact"
   ],
   "note": ""
  },
  {
   "property": "C234",
   "status": "proved",
   "theorems": [
    "ospf_vrf_attributes",
    "ospf_loopback_area",
    "loopback_area_kept_refuted"
   ],
   "note": "That the area of a loopback stays is refuted by a witness; the exact propagation is proved."
  },
  {
   "property": "C235",
   "status": "proved",
   "theorems": [
    "lag_members_exact"
   ],
   "note": ""
  },
  {
   "property": "C236",
   "status": "proved",
   "theorems": [
    "peer_links_exact",
    "peer_link_result_refuted",
    "peer_pairs_symmetric_refuted",
    "peer_pairs_exact",
    "peer_pairs_safe"
   ],
   "note": "Two claims (result and symmetry) are refuted by witnesses; the exact results for usable and unusable peer links and the symmetry without common nodes are proved."
  },
  {
   "property": "C237",
   "status": "proved",
   "theorems": [
    "group_sanity_exact",
    "group_sanity_first",
    "group_type_reported_refuted"
   ],
   "note": "That all groups of a wrong type are reported is refuted by a witness; the exact conditions are proved."
  },
  {
   "property": "C238",
   "status": "proved",
   "theorems": [
    "nvue_passive_exact"
   ],
   "note": "Interfaces are values; sharing between lists is not modelled."
  },
  {
   "property": "C239",
   "status": "proved",
   "theorems": [
    "nvue_loopbacks_exact"
   ],
   "note": "The equality of boxes is a parameter."
  },
  {
   "property": "C240",
   "status": "proved",
   "theorems": [
    "ceos_config_exact",
    "ceos_config_twice"
   ],
   "note": ""
  },
  {
   "property": "C241",
   "status": "proved",
   "theorems": [
    "vlan_links_exact",
    "vlan_links_unique"
   ],
   "note": "adjust_link_object is a parameter; the links of a VLAN are a list."
  },
  {
   "property": "C242",
   "status": "proved",
   "theorems": [
    "lag_member_links_exact",
    "lag_member_links_unique",
    "lag_member_index_refuted"
   ],
   "note": "Unique indexes with another first link index are refuted by a witness; normalized members are given."
  },
  {
   "property": "C243",
   "status": "proved",
   "theorems": [
    "prefix_present_exact",
    "prefix_missing_exact",
    "prefix_missing_refuted"
   ],
   "note": "One claim about missing prefixes is refuted by a witness; the exact results are proved."
  },
  {
   "property": "C244",
   "status": "proved",
   "theorems": [
    "frr_prefix_exact",
    "frr_community_exact",
    "frr_community_refuted"
   ],
   "note": "Two claims about communities are refuted by witnesses; the exact results are proved."
  },
  {
   "property": "C245",
   "status": "proved",
   "theorems": [
    "ospf_neighbor_exact",
    "ospf6_neighbor_exact",
    "ospf6_any_interface_refuted"
   ],
   "note": "One claim is refuted by a witness; the exact results are proved."
  },
  {
   "property": "C246",
   "status": "proved",
   "theorems": [
    "isis_prefix_exact",
    "rt_prefix_exact",
    "rt_missing_refuted",
    "isis_any_cost_refuted"
   ],
   "note": "Two claims are refuted by witnesses; the exact results are proved."
  },
  {
   "property": "C247",
   "status": "proved",
   "theorems": [
    "frr_neighbor_exact",
    "eos_neighbor_exact",
    "bgp_missing_refuted"
   ],
   "note": "One claim is refuted by a witness; the exact results are proved. The selection of the VRF on EOS is not modelled."
  },
  {
   "property": "C248",
   "status": "proved",
   "theorems": [
    "isis_neighbor_exact",
    "isis_any_circuit_refuted"
   ],
   "note": "One claim is refuted by a witness; the exact results are proved."
  }
 ]
}
