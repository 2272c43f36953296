# Formal model of netlab (netsim) in Rocq

## Scope

`/repo` (ipspace/netlab, python package `netsim`) is read as text and modelled by
hand as total Gallina functions over lists, integers, strings and finite trees.
Theorems quantify over all inputs, states and histories of those functions.

## Layout

* `rocq/theories/Base.v` - shared list and association-list lemmas.
* `rocq/theories/<Topic>_Model.v` - definitions only; every definition cites file
  and lines of the code it models and the simplifications made.
* `rocq/theories/<Topic>_Props.v` - independent specification, lemmas, theorems,
  `Example`s showing that the hypotheses can be met, `Print Assumptions`.
* `MANIFEST.json` - property to theorem map. `seeded/LOG.jsonl` - wrong-program log.

## Trusted base

* Coq 8.16.1 kernel (checked again with coqchk).
* No axioms: stdlib only; `Print Assumptions` at the end of every `_Props.v` file prints
  "Closed under the global context" for each theorem listed in MANIFEST.json.
* The hand translation from Python to Gallina (comments give the lines), and the
  modelling conventions below. Nothing is extracted from or run against the code.

## Modelling conventions

* Python exceptions, `log.fatal` and `log.error` are values (`Error`, error counters,
  or lists of error tags), never silently dropped.
* `set` is a list used only through membership; `dict` is an association list with
  insertion order; `Box` trees are the `val` type of `Box_Model.v`.
* IP addresses and prefixes are integers: (base, prefix length, width).
* `while` loops use explicit fuel with an out-of-fuel result; theorems show that the
  result is not out-of-fuel (termination) where the code claims it.
* Text processing is on Coq `string`/`list ascii`; only ASCII is modelled.

<!-- modelled code: begin -->
## Modelled code

Functions of `/repo` cited by the model files, with the range of cited lines. A cited function is modelled
to the extent described in the comment of the definition; everything not listed here is not modelled.

| model file | source file | functions |
|---|---|---|
| Adv_Model.v | netsim/data/__init__.py | kw_lookup 164-174, kw_list_transform 176-183 |
| Adv_Model.v | netsim/modules/_routing.py | is_true_stub 111-121 |
| Adv_Model.v | netsim/modules/bgp.py | bgp_set_advertise 455-476, bgp_set_originate_af 482-512, bgp_transform_community_list 575-605, vlan_ebgp_role_collect 628-638, vlan_ebgp_role_set 643-648, module_pre_link_transform 677-693 |
| Agrp_Model.v | netsim/augment/groups.py | auto_create_members 235-271, add_node_level_groups 276-293, export_group_node_data 438-461, create_bgp_autogroups 467-515, precheck_groups 527-538 |
| Asg_Model.v | netsim/augment/addressing.py | rebuild_prefix 90-95, get_pool 230-239, evaluate_named_prefix 316-339, setup_prefixes 344-347, parse_prefix 349-409 |
| Asg_Model.v | netsim/augment/links.py | set_fhrp_gateway 365-391, assign_link_prefix 407-459, IPAM_unnumbered 597-614, assign_interface_addresses 665-737, cleanup_link_interface_AF_entries 742-769 |
| Bchk_Model.v | netsim/data/types.py | check_valid_values 200-200, transform_to_list 437-438 |
| Bchk_Model.v | netsim/modules/bgp.py | check_bgp_parameters 17-54, validate_bgp_sessions 57-78 |
| Bgp_Model.v | netsim/modules/bgp.py | find_bgp_rr 85-88, bgp_neighbor 98-113, get_remote_ibgp_endpoint 134-141, build_ibgp_sessions 149-179, build_ebgp_sessions 210-348, activate_bgp_default_af 357-361, build_bgp_rr_clusters 370-396, build_bgp_sessions 405-432, process_as_list 522-573, ebgp_role_link 610-624 |
| Bnb_Model.v | netsim/validate/_common.py | get_bgp_neighbor_id 10-18 |
| Bnb_Model.v | netsim/validate/bgp/eos.py | valid_bgp_neighbor 37-72 |
| Bnb_Model.v | netsim/validate/bgp/frr.py | show_bgp_neighbor 12-16, valid_bgp_neighbor 29-67 |
| Bnb_Model.v | netsim/validate/isis/frr.py | valid_isis_neighbor 31-60 |
| Bond_Model.v | netsim/extra/bonding/plugin.py | add_bond_interfaces 9-37, update_neighbors 43-63, post_link_transform 69-107 |
| Box_Model.v | netsim/augment/groups.py | copy_group_node_data 415-415 |
| Box_Model.v | netsim/modules/__init__.py | merge_node_module_params 205-205 |
| Clone_Model.v | netsim/extra/node.clone/plugin.py | clone_link 11-25, clone_lag 30-54, process_links 62-85, clone_node 98-146, topology_expand 151-154 |
| Comp_Model.v | netsim/augment/components.py | validate_components 26-44, validate_include 53-69, include_nodes 89-114, include_links 111-124, create_included_group 126-149, expand_include 151-159, expand_components 168-186 |
| Comp_Model.v | netsim/augment/links.py | get_next_linkindex 1105-1110 |
| Comp_Model.v | netsim/augment/nodes.py | reserve_id 23-23, create_node_dict 40-72 |
| Conf_Model.v | netsim/extra/check.config/plugin.py | cleanup 10-41 |
| Defs_Model.v | netsim/augment/config.py | copy_datatypes 17-34, adjust_attributes 36-55, copy_merge_attributes 64-88, adjust_paths 155-162, adjust_path_list 164-173 |
| Defs_Model.v | netsim/augment/plugin.py | merge_plugin_defaults 28-40, load_plugin_from_path 42-106, sort_plugins 118-130, init 185-213, plugin_requires_check 225-241 |
| Defs_Model.v | netsim/augment/topology.py | adjust_global_parameters 62-93 |
| Defs_Model.v | netsim/data/types.py | must_be_list 437-453 |
| Defs_Model.v | netsim/utils/read.py | include_yaml 33-78, read_yaml 92-139, include_defaults 141-145, build_defaults_list 162-206, include_environment_defaults 215-230, load 239-277, transform_cli_value 287-296, add_cli_args 298-338 |
| Dev_Model.v | netsim/augment/devices.py | get_device_attribute 24-48, get_consolidated_device_data 90-102, process_child_device 118-131, process_device_inheritance 133-136 |
| Dev_Model.v | netsim/data/__init__.py | remove_null_values 64-69 |
| Dfl_Model.v | netsim/augment/devices.py | build_module_support_lists 141-173, merge_daemons 178-199 |
| Dfl_Model.v | netsim/augment/tools.py | validate_tool_attributes 18-27, merge_tool_defaults 32-40, copy_default_tools 45-53, process_tools 62-69 |
| Dhcp_Model.v | netsim/data/__init__.py | append_to_list 37-47 |
| Dhcp_Model.v | netsim/modules/dhcp.py | check_protocol_support 20-114, build_topology_dhcp_pools 143-247, set_dhcp_relay 269-301, link_pre_transform 337-361, module_post_transform 370-379 |
| Dom_Model.v | netsim/extra/bgp.domain/plugin.py | post_transform 16-60 |
| Evpn_Model.v | netsim/modules/evpn.py | vlan_based_service 73-73, register_static_transit_vni 170-183, get_next_vni 188-192, vrf_transit_vni 194-264, vrf_irb_setup 258-263, set_local_evpn_rd 297-314, check_asym_vlan 320-338 |
| Evs_Model.v | netsim/modules/evpn.py | enable_evpn_af 45-53, get_usable_evpn_asn 55-67, vlan_based_service 69-80, vlan_aware_bundle_service 82-115, get_vlan_bundle_flag 122-137, create_vlan_service 143-148, validate_no_node_vrf_attributes 154-165, vrf_irb_setup 266-272, copy_global_evpn_lists 277-281, trim_node_evpn_lists 286-292, check_node_vrf_irb 343-367, check_node_vrf_bundle 373-383, module_post_node_transform 408-409 |
| Extra_Model.v | netsim/augment/links.py | get_default_link_type 940-947, set_link_bridge_name 971-980 |
| Extra_Model.v | netsim/augment/nodes.py | cleanup 620-622, ghost_buster 629-656 |
| Extra_Model.v | netsim/augment/plugin.py | find_preceding_configs 140-152, sort_extra_config 161-176 |
| Fabric_Model.v | netsim/extra/fabric/plugin.py | create_node 14-19, add_group 25-26, extract_params 39-51, format_node_params 60-76, adjust_group_parameters 82-107, generate_fabric 113-158, topology_expand 184-207 |
| Files_Model.v | netsim/utils/files.py | expand_package 81-82, absolute_search_path 84-116, find_file 120-126 |
| Gdat_Model.v | netsim/augment/groups.py | check_group_data_sanity 103-105, check_group_data_structure 108-224 |
| Groups_Model.v | netsim/augment/groups.py | group_members 25-51, check_recursive_chain 299-315, check_recursive_groups 317-322, reverse_topsort 324-342, copy_group_device_module 347-377, copy_group_node_data 385-415, node_config_templates 584-645 |
| Gsan_Model.v | netsim/augment/groups.py | check_group_data_sanity 67-106 |
| Gw_Model.v | netsim/augment/addressing.py | get_nth_ip_from_prefix 411-413 |
| Gw_Model.v | netsim/augment/links.py | interface_data 344-352, set_fhrp_gateway 365-391, create_node_interfaces 845-849, copy_link_gateway 1068-1081, set_node_af 1079-1081, transform 1217-1232 |
| Gw_Model.v | netsim/augment/main.py | transform_data 80-83 |
| Gw_Model.v | netsim/data/__init__.py | get_global_settings 88-111, is_true_int 145-146 |
| Gw_Model.v | netsim/modules/__init__.py | remove_module 135-141, link_transform 496-506 |
| Gw_Model.v | netsim/modules/gateway.py | check_gw_protocol 14-21, check_protocol_support 32-45, cleanup_unicast_ip 54-62, cleanup_intf_protocol_parameters 71-88, process_gw_id 95-113, module_init 124-155, link_pre_link_transform 157-248, node_post_transform 246-273 |
| IdAlloc_Model.v | netsim/augment/nodes.py | reserve_id 23-33, transform 416-430 |
| IdAlloc_Model.v | netsim/modules/_dataplane.py | create_id_set 63-66, extend_id_set 68-71, is_id_used 73-75, set_id_counter 77-84, get_next_id 86-100 |
| Igp_Model.v | netsim/modules/__init__.py | node_transform 475-488 |
| Igp_Model.v | netsim/modules/_routing.py | routing_af 23-69, network_type 76-85, external 89-98, is_true_stub 107-118, passive 134-168, remove_vrf_interfaces 254-257, build_vrf_interface_list 262-290, remove_unaddressed_intf 299-304, remove_unused_igp 308-329, igp_post_transform 727-756 |
| Igp_Model.v | netsim/modules/bfd.py | bfd_link_state 16-49, multiprotocol_bfd_link_state 51-99 |
| Igp_Model.v | netsim/modules/eigrp.py | node_post_transform 12-14 |
| Igp_Model.v | netsim/modules/isis.py | node_post_transform 53-62 |
| Igp_Model.v | netsim/modules/ospf.py | ospf_unnumbered 21-50, node_post_transform 98-111 |
| Igp_Model.v | netsim/modules/ripv2.py | adjust_rip_timers 26-37, node_post_transform 44-51 |
| Imp_Model.v | netsim/data/__init__.py | append_to_list 37-47 |
| Imp_Model.v | netsim/modules/__init__.py | copy_node_data_into_interfaces 394-417 |
| Imp_Model.v | netsim/modules/_routing.py | remove_vrf_routing_blocks 335-345, check_vrf_protocol_support 357-383, check_intf_support 388-415, node_add_routing_policy 508-510, check_import_request 522-582, default_route_adjust 661-695, process_default_route 698-715 |
| Imp_Model.v | netsim/utils/routing.py | igp_interfaces 72-89 |
| Intf_Model.v | netsim/augment/components.py | include_links 120-120 |
| Intf_Model.v | netsim/augment/links.py | adjust_interface_list 18-19, get_unique_ifindex 204-224, create_regular_interface 235-239, create_virtual_interface 271-277, add_node_interface 317-319, create_node_interfaces 838-857, get_default_link_type 940-947, set_link_bridge_name 971-976, check_link_type 982-1025, get_next_linkindex 1105-1110, get_link_by_index 1112-1116, set_linkindex 1131-1136 |
| Intf_Model.v | netsim/augment/nodes.py | check_unique_ifnames 535-549 |
| Intf_Model.v | netsim/modules/vlan.py | create_vlan_link_data 593-593 |
| Intf_Model.v | netsim/modules/vrf.py | module_pre_transform 414-414 |
| Ipam_Model.v | netsim/augment/links.py | get_gateway_id 356-359, set_fhrp_gateway 365-385, get_prefix_IPAM_policy 471-502, check_interface_host_bits 508-551, set_interface_address 556-590, IPAM_sequential 616-625, IPAM_p2p 627-633, IPAM_id_based 635-640, IPAM_loopback 642-647, check_duplicate_address 1140-1163 |
| Lag_Model.v | netsim/modules/lag.py | populate_lag_id_set 18-24, normalized_members 84-108, set_lag_ifindex 113-149, create_lag_interfaces 175-233, populate_mlag_peer 332-350, module_pre_transform 413-415 |
| Lnk_Model.v | netsim/augment/links.py | adjust_interface_list 21-54, adjust_link_object 66-119, adjust_link_list 115-161, set_linknames 1121-1126, set_linkindex 1131-1135, expand_groups 1172-1209, links_init 1203-1215 |
| Lnk_Model.v | netsim/data/types.py | must_be_list 437-453 |
| Log_Model.v | netsim/cli/create.py | run 84-101 |
| Log_Model.v | netsim/utils/log.py | fatal 114-133, print_more_hints 157-163, error 199-285, pending_errors 376-379, repeat_warnings 385-396 |
| Loop_Model.v | netsim/extra/bgp.originate/plugin.py | post_node_transform 17-43 |
| Loop_Model.v | netsim/extra/mlag.vtep/plugin.py | pre_link_transform 27-43 |
| Mgmt_Model.v | netsim/augment/addressing.py | validate_pools 143-174 |
| Mgmt_Model.v | netsim/augment/nodes.py | augment_mgmt_if 118-165, check_duplicate_mgmt_addr 171-185 |
| Mgmt_Model.v | netsim/providers/__init__.py | get_forwarded_ports 363-377 |
| Mhop_Model.v | netsim/augment/links.py | get_next_linkindex 1105-1110 |
| Mhop_Model.v | netsim/extra/ebgp.multihop/plugin.py | pre_link_transform 33-88, check_multihop_support 93-100, check_af_activation_support 105-112, augment_af_activation 117-136, remove_fake_interfaces 141-145, cleanup_interfaces 150-160, fix_vrf_loopbacks 168-202 |
| Mhop_Model.v | netsim/modules/vrf.py | get_vrf_loopback 375-384 |
| Mod_Model.v | netsim/modules/__init__.py | merge_node_module_params 194-212, get_propagated_global_module_params 219-229, adjust_global_modules 250-262, check_module_dependencies 331-360, sort_module_list 381-383, get_effective_module_attribute 424-447 |
| Mpls_Model.v | netsim/data/__init__.py | bool_to_defaults 121-139 |
| Mpls_Model.v | netsim/modules/_routing.py | is_true_stub 111-121, passive 134-167, remove_unused_igp 308-329 |
| Mpls_Model.v | netsim/modules/mpls.py | node_adjust_ldp 30-73, validate_mpls_bgp_parameter 75-114, node_adjust_bgplu 116-126, node_adjust_6pe 128-157, prune_mplsvpn_af 159-170, node_adjust_mplsvpn 172-183, check_node_features 188-205, node_pre_transform 209-231, node_post_transform 226-255 |
| Ndev_Model.v | netsim/augment/devices.py | get_provider 108-109 |
| Ndev_Model.v | netsim/augment/nodes.py | find_node_device 191-224, find_node_image 231-268, validate_node_provider 274-297, augment_node_provider_data 306-318, augment_node_device_data 345-368, loopback_interface 373-404 |
| Ndev_Model.v | netsim/modules/__init__.py | augment_node_module 145-165, check_supported_node_devices 170-186, merge_global_module_params 273-296, reorder_node_modules 369-379 |
| Newl_Model.v | netsim/augment/links.py | get_next_linkindex 1105-1110 |
| Newl_Model.v | netsim/modules/lag.py | create_l2_link_base 40-45, create_lag_member_links 154-171 |
| Newl_Model.v | netsim/modules/vlan.py | create_vlan_access_links 1187-1206 |
| Nodes_Model.v | netsim/augment/links.py | add_node_interface 317-332, create_ifname 787-803, set_parent_interface 815-827, set_link_loopback_type 890-908, count_link_nodes 913-935, set_link_type_role 949-969, check_link_type 982-1023, interface_feature_check 1031-1050, set_node_af 1086-1098 |
| Nodes_Model.v | netsim/augment/nodes.py | augment_node_system_data 322-340, default_static_route_list 447-461, add_host_static_routes 473-507, cleanup_daemon_config 520-530, cleanup_mtu 561-606 |
| Nodes_Model.v | netsim/data/__init__.py | append_to_list 37-47 |
| Nodeset_Model.v | netsim/cli/_nodeset.py | is_glob 18-19, add_glob 23-31, parse_nodeset 47-65, get_nodeset 70-76 |
| Nvue_Model.v | netsim/devices/cumulus_nvue.py | nvue_check_ospf_passive_in_vrf 80-94, nvue_merge_ospf_loopbacks 99-120 |
| Nvue_Model.v | netsim/devices/eos.py | configure_ceos_attributes 70-94 |
| Pfx_Model.v | netsim/validate/_common.py | check_for_prefix 26-42, run_prefix_checks 44-86 |
| Pfx_Model.v | netsim/validate/bgp/__init__.py | check_community_kw 12-18 |
| Pfx_Model.v | netsim/validate/bgp/frr.py | check_community 149-167, valid_bgp_prefix 235-259 |
| Plag_Model.v | netsim/modules/lag.py | check_mlag_support 68-76, normalized_members 84-108, create_peer_links 239-285, check_same_pair 245-252, module_pre_transform 407-411 |
| Pol_Model.v | netsim/extra/bgp.policy/plugin.py | append_policy_attribute 78-98, check_attribute_direction 106-150, apply_policy_attributes 166-188, fix_bgp_bandwidth 194-200, bgp_policy_name 205-207, create_routing_policy 212-240, apply_bgp_routing_policy 245-267, post_transform 278-313 |
| Pol_Model.v | netsim/utils/routing.py | cleanup_neighbor_attributes 122-125 |
| Pool_Model.v | netsim/augment/addressing.py | create_pool_generators 217-225, get_pool 223-223, get_nth_subnet 241-244, get_pool_prefix 246-278, get_nth_ip_from_prefix 411-413 |
| Prov_Model.v | netsim/augment/devices.py | get_provider 108-109 |
| Prov_Model.v | netsim/providers/__init__.py | select_primary_provider 266-301, mark_providers 333-345, select_topology 350-358, validate_mgmt_ip 393-426 |
| Pset_Model.v | netsim/augment/addressing.py | normalize_prefix 64-88, normalize_ip 67-75, setup_pools 97-117 |
| Pset_Model.v | netsim/augment/config.py | make_paths_absolute 180-191 |
| Pset_Model.v | netsim/augment/topology.py | cleanup_topology 95-108 |
| Pset_Model.v | netsim/utils/files.py | absolute_search_path 84-114 |
| Quirk_Model.v | netsim/devices/__init__.py | report_quirk 142-151 |
| Quirk_Model.v | netsim/devices/cumulus_nvue.py | nvue_check_stp_features 14-40, nvue_check_native_routed_on_mixed_trunk 56-73, mark_shared_mlag_vtep 125-132 |
| Quirk_Model.v | netsim/devices/eos.py | check_mlps_vlan_bundle 12-25, check_mpls_clab 27-39 |
| Quirk_Model.v | netsim/devices/iosvl2.py | check_reserved_vlans 13-19, vlan_1_tagged 27-37, IOSvL2 28-31 |
| Quirk_Model.v | netsim/devices/junos.py | unit_0_trick 17-24, set_junos_mtu 26-29, fix_unit_0 31-68, check_multiple_loopbacks 70-99 |
| Quirk_Model.v | netsim/devices/nxos.py | check_reserved_vlans 11-19, vlan_1_tagged 23-33 |
| Rid_Model.v | netsim/modules/_routing.py | get_router_id_prefix 187-211, router_id 216-249, get_unique_router_ids 453-493 |
| Rid_Model.v | netsim/utils/routing.py | get_intf_address 18-19, get_address 21-22 |
| Routing_Model.v | netsim/modules/_routing.py | build_vrf_interface_list 289-290, is_vrf_protocol 499-506, process_imports 587-623, remove_vrf_imports 635-656 |
| Routing_Model.v | netsim/modules/routing.py | normalize_routing_entry 25-35, normalize_routing_object 105-107, import_routing_object 222-255, include_global_static_routes 303-345, expand_prefix_entry 455-471, adjust_pfx_min_max 476-503, create_pfx_af_entry 508-517, create_empty_prefix_list 522-525, expand_prefix_list 530-547, number_aspath_acl 549-553, process_static_route_includes 654-710 |
| Sess_Model.v | netsim/data/__init__.py | append_to_list 37-47 |
| Sess_Model.v | netsim/extra/bgp.session/plugin.py | get_attribute_list 22-26, mark_plugin_config 31-37, apply_neighbor_attributes 43-59, copy_local_attributes 65-82, process_tcpao_password 89-109, process_bfd_requests 114-126, zap_bgp_neighbor 131-135, set_rs_client 157-175, process_rs_requests 183-197, cleanup_rs_mesh 210-219, cleanup_bgp_neighbors 227-235, post_transform 244-260 |
| Sess_Model.v | netsim/utils/routing.py | neighbors 37-53, intf_neighbors 56-68, check_device_attribute_support 97-116, cleanup_neighbor_attributes 122-125 |
| Sort_Model.v | netsim/utils/sort.py | dependency 22-43 |
| Sroute_Model.v | netsim/data/__init__.py | append_to_list 37-47 |
| Sroute_Model.v | netsim/modules/_routing.py | get_remote_cp_endpoint 422-429 |
| Sroute_Model.v | netsim/modules/routing.py | process_routing_data 373-409, extract_af_info 621-633, get_static_route_id 643-649, create_nexthop_data 722-735, extract_nh_from_list 743-748, resolve_node_nexthop 759-794, create_gateway_last_resort 805-829, resolve_gateway_nexthop 849-892, resolve_nexthop_intf 902-932, check_VRF_static_route 936-968, check_static_routes 971-1052, cleanup_static_routes 1054-1055 |
| Sroute_Model.v | netsim/utils/routing.py | get_intf_address 17-18 |
| Srv6_Model.v | netsim/modules/srv6.py | node_post_transform 12-30 |
| Status_Model.v | netsim/cli/__init__.py | lab_status_update 306-350, lab_status_change 355-364 |
| Status_Model.v | netsim/cli/down.py | run 174-202 |
| Status_Model.v | netsim/cli/up.py | get_topology 76-90, lab_status_start 101-114, status_start_provider 121-127, check_lab_instance 152-176, start_provider_lab 199-211, recreate_secondary_config 215-215, run_up 303-330 |
| Status_Model.v | netsim/outputs/__init__.py | check_writeable 22-26 |
| Status_Model.v | netsim/utils/status.py | change_status 37-67, remove_lab_status 83-88, lock_directory 96-103 |
| Stp_Model.v | netsim/modules/stp.py | supports_stp 14-19, configure_stub_port_type 24-32, node_post_transform 37-106 |
| Svi_Model.v | netsim/augment/links.py | get_unique_ifindex 205-227 |
| Svi_Model.v | netsim/modules/vlan.py | routed_access_vlan 35-48, populate_node_vlan 486-508, get_vlan_data 731-738, update_vlan_neighbor_list 749-775, create_node_vlan 780-802, create_svi_interfaces 809-913, set_svi_neighbor_list 918-939, map_trunk_vlans 944-957, find_parent_interface 962-972, rename_neighbor_interface 977-985, remove_vlan_from_trunk 990-996, rename_vlan_subinterfaces 1001-1074, cleanup_routed_native_vlan 1085-1102, check_mixed_trunks 1111-1137, check_mixed_native_trunk 1144-1163, module_post_link_transform 1405-1422 |
| Text_Model.v | netsim/data/filemaps.py | box_to_dict 18-27, dict_to_mapping 32-33, mapping_to_dict 38-39, check_mapping_list 44-65, check_mapping_dict 70-80, normalize_file_mapping 88-110 |
| Text_Model.v | netsim/utils/read.py | include_environment_defaults 223-229 |
| Text_Model.v | netsim/utils/strings.py | make_id 204-211 |
| Types_Model.v | netsim/data/types.py | check_valid_values 187-216, get_value_to_check 259-302, execute_test 354-413, must_be_list 437-453, must_be_dict 455-457, must_be_string 459-465, must_be_id 467-482, check_int_type 486-505, must_be_int 507-524, must_be_bool 526-545, must_be_asn2 552-561, transform_asdot 563-568, asdot_parsing 572-597, must_be_asn 599-613, common_addr_parse 653-711, must_be_net 797-813, must_be_rd 815-840 |
| Valid_Model.v | netsim/data/__init__.py | get_a_list 21-28 |
| Valid_Model.v | netsim/data/types.py | get_value_to_check 268-302, execute_test 354-413 |
| Valid_Model.v | netsim/data/validate.py | remove_required_flag 33-39, get_attribute_namespaces 41-68, get_valid_attributes 77-117, validate_module_can_be_false 122-131, check_required_keys 137-149, validate_dictionary 157-241, validate_list 249-301, validate_alt_type 307-327, transform_validation_shortcuts 358-384, check_valid_with 394-424, validate_item 445-563, validate_attributes 574-704, get_object_attributes 727-743 |
| Vchk_Model.v | netsim/modules/isis.py | isis_unnumbered 12-37 |
| Vchk_Model.v | netsim/modules/ospf.py | propagate_node_attributes 60-76 |
| Vchk_Model.v | netsim/modules/vlan.py | check_link_interface_attributes 332-370, get_vlan_interface_mode 536-546, cleanup_vlan_flags 1237-1246 |
| Version_Model.v | netsim/utils/versioning.py | get_netlab_version 43-48, get_versioned_topology 75-113 |
| Vlan_Model.v | netsim/data/__init__.py | get_global_parameter 82-86 |
| Vlan_Model.v | netsim/modules/_dataplane.py | build_id_set 39-54, validate_object_reference_list 139-159 |
| Vlan_Model.v | netsim/modules/vlan.py | populate_vlan_id_set 25-31, validate_global_node_match 53-71, validate_vlan_attributes 83-140, set_node_vlan_mode 470-475, populate_node_vlan 486-508, compute_interface_vlan_mode 513-523, populate_node_vlan_data 1170-1175, module_pre_transform 1254-1266, node_pre_transform 1275-1294 |
| Vlan_Model.v | netsim/modules/vxlan.py | register_static_vni 16-24, assign_vni 51-90, build_vtep_list 137-163, module_post_node_transform 180-185, module_post_transform 190-245 |
| Vlb_Model.v | netsim/augment/links.py | get_unique_ifindex 204-224 |
| Vlb_Model.v | netsim/modules/vrf.py | validate_vrf_route_leaking 280-293, fix_vrf_unnumbered 297-305, vrf_loopbacks 307-370, node_post_link_transform 489-489, VRF 491-528 |
| Vlink_Model.v | netsim/modules/__init__.py | get_effective_module_attribute 424-447 |
| Vlink_Model.v | netsim/modules/vlan.py | populate_vlan_id_set 17-22, routed_access_vlan 35-48, check_link_vlan_attributes 144-222, validate_link_vlan_attributes 227-323, validate_trunk_vlan_list 377-427, copy_vlan_attributes 432-437, get_link_access_vlan 442-451, fix_vlan_mode_attribute 456-459, compute_interface_vlan_mode 510-520, set_access_vlan_interface_mode 525-529, set_link_vlan_prefix 556-586, create_vlan_link_data 591-610, create_vlan_member_interface 616-637, create_vlan_links 642-682, create_loopback_vlan_links 693-729, link_pre_transform 1296-1360, module_pre_link_transform 1355-1360 |
| Vnb_Model.v | netsim/validate/isis/frr.py | valid_isis_prefix 80-101 |
| Vnb_Model.v | netsim/validate/ospf/frr.py | valid_ospf_neighbor 20-39, valid_ospf6_neighbor 48-69 |
| Vnb_Model.v | netsim/validate/route/frr.py | valid_rt_prefix 22-56 |
| Vrf_Model.v | netsim/modules/__init__.py | pre_node_transform 78-78 |
| Vrf_Model.v | netsim/modules/_dataplane.py | build_id_set 39-53 |
| Vrf_Model.v | netsim/modules/vrf.py | init_vrf_static_ids 37-41, populate_vrf_static_ids 46-52, get_rd_as_number 57-62, parse_rdrt_value 68-81, get_next_vrf_id 83-94, normalize_vrf_dict 106-143, normalize_vrf_ids 140-149, vrf_needs_id 151-154, set_vrf_auto_id 156-161, get_vrf_id 169-189, set_vrf_ids 194-217, set_import_export_rt 222-272, VRF 422-453, node_pre_transform 441-450, link_pre_transform 448-448, node_post_transform 530-544 |
| Vtest_Model.v | netsim/augment/validate.py | validate_test_entry 19-75, calculate_device_support 85-112, process_validation 122-133 |
| Vtest_Model.v | netsim/cli/validate.py | increase_fail_count 73-84, increase_pass_count 86-89, extend_first_wait_time 205-232, extend_device_wait_time 238-251, get_entry_value 412-441, find_test_action 628-648, wait_before_testing 651-676, execute_validation_expression 699-755, execute_suzieq_validation 761-797, execute_validation_plugin 809-840, execute_node_validation 845-915, execute_validation_test 952-1029, filter_by_tests 1034-1049, filter_by_nodes 1054-1080, run 1101-1155 |

<!-- modelled code: end -->

## Not modelled

Jinja2 templates, Ansible, the provider command lines, YAML parsing, printing and
formatting of error messages, device quirks, network I/O. Plugin code (`extra/`) other than bgp.domain, bgp.originate, bgp.policy, bgp.session, bonding, check.config, ebgp.multihop, fabric, mlag.vtep, node.clone and proxy-arp, the
output modules and most CLI commands. The texts and hints of attribute validation errors
and the resolution of dynamic attributes (`data/validate.py`). Parsing of IP addresses in static routes
(`ipaddress` is a parameter of the model). Within modelled modules: creation of VLAN links,
the duplicate address check and the removal of internal attributes in `modules/vlan.py`, route leaking checks in
`modules/vrf.py`, bundle services in `modules/evpn.py`.

## Plan per property

| id | model | proof idea |
|----|-------|-----------|
| C01 | id namespace as (used set, next, max); operations as a list | invariant over histories |
| C02 | same, fuelled `get_next_id` loop | invariant "everything in start..next is used" |
| C03 | `nodes.transform` id part as a fold over nodes | uses C01/C02 |
| C04-C06 | pool generator state (position, cache) as state machine | invariant: positions handed out are strictly increasing; arithmetic for disjointness |
| C07-C08 | the IPAM policy choice and the assignment functions on integers | case analysis + arithmetic; counterexamples by computation |
| C09 | check as a fold returning reports | induction over interface list |
| C10 | node interface list and `add_node_interface` | invariant over additions |
| C11 | two-phase interface creation as list functions | index-based list reasoning |
| C12 | list indices | induction |
| C13-C14 | layered sort with watchdog | permutation/ordering invariant; acyclic => every pass makes progress (well-founded rank argument), cyclic => stuck set |
| C15-C17 | groups as finite graph, DFS with fuel | paths, pigeonhole bound on path length |
| C18-C19 | folds over the ordered group list, Box merge | lookup characterization of merge |
| C20 | fold over list | characterization by suffixes |
| C21-C22 | `val` trees, `merge` | structural induction |
| C23-C25 | folds of merges; list functions | lookup lemmas |
| C26-C28 | string functions | induction over strings |
| C29 | validators as functions on a small value type | arithmetic |
| C30-C32 | transition systems of processes, file content, locks, crash steps | inductive invariants over all reachable states; counterexample traces |
| C33 | VLAN/VNI allocation folds | uses C01/C02 |
| C34 | mode selection functions | case analysis + idempotence |
| C35-C37 | VRF id/RD allocation folds, RT expansion, index assignment | invariants over folds |
| C38, C64-C66 | transit VNI passes, substring test, EVPN RDs | invariant over fold, counterexamples |
| C63 | VRF static values | relation between initial and final dictionaries |
| C39 | flood list construction | set characterization |
| C40-C42 | session construction over node lists | set characterization, symmetry |
| C67-C69 | string minimum, activation flags, distinct AS list | order properties, case analysis |
| C43 | router-id selection | case analysis, injectivity |
| C44-C46 | policy list functions | sortedness, membership, bounded passes |
| C47 | LAG index fold | invariant, counterexample |
| C48 | arithmetic of node ids | injectivity |
| C49-C51 | list/search/log folds | induction |
| C52-C53 | device trees with parents | fuel + chain argument |
| C59 | nested dictionaries of file names | unfolding of single chains |
| C60-C61 | generic wrapper around validators; address text parsers | case analysis, exhaustive octet table |
| C62 | status entry update | case analysis |
| C54-C55 | list functions | stable partition, membership |
| C70-C94 | see the notes in MANIFEST.json and the comments in the model files | set characterizations, case analysis, counterexamples |
| C95, C96, C99 | two mutually recursive validation functions with fuel, data types as parameters | inversion of one call, induction over fuel |
| C97, C98 | worklist loop and merges over attribute definitions | reachability, lookup characterization of merge |
| C100 | same as C95 | measure on nested data, monotonicity in fuel |
| C101-C105 | static route processing with the IP library as parameters; exceptions as values | closed forms of the interface loops, stability of the gateway cache, case analysis of one route |
| C106-C116 | VLAN interfaces, ports, trunks and subinterfaces; interface names from parameters of the model | step relation for the interface loop, invariants on positions, neighbor lists across nodes |
| C117-C118 | links as value trees, link lists and link groups; error messages as values | relation for each link form, induction over nested values |
| C119-C122, C124 | components as node data, links and attributes; recursive expansion with fuel | inductive instance relation, well-founded nesting, fuel bound from accessibility |
| C123 | node lists as value lists | relation between items and results, last value wins |
| C125-C130 | MPLS settings as values, neighbors and interfaces as records, exceptions as values | per-interface and per-neighbor characterization, agreement of two nodes |
| C131-C136 | links with VLAN attributes as values, collected VLANs as records, member and loopback links as new links | error sets of the first invalid object, closed forms of collected lists, position-wise description of created links |
| C137-C144 | test entries as records, the lab as a sequence of observations, attempts as a trace, counters | case analysis of one attempt, invariants of the retry loop over all sequences, counting, witnesses by computation |
| C145-C147 | nodes, links and groups as value trees; the name of a clone as a function of name and number | step-wise description of the link loop over any prefix, leaves of merged data, witnesses by computation |
| C148-C149 | fabric parameters as value trees; formatting and integer conversion as functions given from outside | leaves of filtered and merged trees, product of the layers, witnesses by computation |
| C150-C152 | sessions as dictionaries of values, interfaces with index, VRF and attributes; device features given from outside | the loops over sessions as maps, an invariant over the processed nodes that does not mention their order, witnesses by computation |
| C153-C156 | defaults, files and plugins as value trees; file system, glob matching and plugin directories given from outside; exceptions as values | first source wins by induction over the sources, replacement along paths, theorems about dependency sorting reused, witnesses by computation |
| C157-C158 | attribute definitions and search paths as value trees | an invariant of the copy loop, exact leaves of adjusted trees by induction over the path |
| C159-C160 | interfaces, VLANs and features as records, STP attributes as value trees | one interface at a time, error list as a union of independent checks |
| C161-C162 | interfaces as records with a dictionary of attributes, bonds as a list in order of creation; renaming as a sequence of events | invariant over processed interfaces with closed forms, last event that reaches a name |
| C163-C166 | sessions and neighbors as value trees or records; loopbacks and features given from outside | lookups in moved dictionaries, last transport wins, first matching loopback, witnesses by computation |
| C167-C169 | attributes as value trees, the node as a state changed by one neighbor after another; features and policy checks given from outside | fold invariants for the attributes, position of the neighbor decides the presence of the routing module, names split at the last dash |
| C170 | nodes with neighbors, flags as a dictionary keyed by domain and AS text | key text is injective, flag of a key as a disjunction over all neighbors |
| C171-C172 | links as records, allocated addresses given from outside | position of an entry gives the index, number of peer groups before a link gives the address |
| C173-C174 | nodes with template lists, existing files given from outside | noticed templates are the missing prefix of a list, warnings as a fold over events |
| C175 | address as eight numbers, hexadecimal text as digits | digit induction with powers of 16 |
| C176-C178 | nodes with optional providers, addresses as numbers with prefix lengths | the first used provider of a list, filters on lists, ranges of addresses as divisions |
| C197-C201 | import requests, protocol data and interfaces as dictionaries; device features as values | a loop splits at the first request with a forbidden policy, per-entry lookups, tables as sets of pairs, induction over modules with unchanged other keys |
| C202-C206 | nodes, devices and providers as value trees; errors as values; reading a missing attribute creates it where the code does | each step characterized by lookups, composed for one node, induction over nodes |
| C207 | loopback interface as a value tree, pool values as a sum type | fold invariant over pool attributes |
| C208-C210 | modules as names, defaults as value trees | leaves of merged trees; sorting from the general sort theorems |
| C211-C215 | VLANs and VRFs as records in dictionaries, services as a fold over evpn.vlans | invariant relating every prefix of the fold to the initial state |
| C216-C218 | defaults as value trees, failures as results | key by key description of folds over devices and tools |
| C219-C223 | interfaces as records of the attributes that quirks use | lists described element by element; versions by a checked table of digits |
| C224-C226 | pools and paths as value trees; address parser and directory search are parameters | key by key description; paths by induction over the tree |
| C227-C228 | groups as dictionaries; attribute validation and object names are parameters | induction over the attributes and over the groups |
| C229-C230 | BGP data as value trees, list checks by the model of the type tests | value meant by an attribute as a relation, induction over the keys |
| C231-C234 | interfaces, VLANs and nodes as dictionaries; device features are parameters | case analysis with independent predicates; key by key description of copied data |
| C235-C236 | members as LAG attribute names and nodes; devices and MLAG support are parameters | induction over members and peer links |
| C237-C240 | groups and interfaces as values; equality of boxes is a parameter; bind mappings are lists of texts | induction over groups and interfaces with independent predicates |
| C241-C242 | links as dictionaries; adjust_link_object is a parameter | induction over VLANs, links and members; new links as a suffix described attribute by attribute |
| C243-C244 | checks as functions on lists of paths; FRR paths as records | induction over checks; selected paths as a conjunction of independent predicates |
| C245-C246 | results of show commands as dictionaries and lists; exceptions as failed validation | induction over entries; the first matching entry as a decomposition of the list |
| C247-C248 | neighbors and circuits as records; exceptions as failed validation | first matching entry as a decomposition of the list; case analysis over lookups |
| C179-C182 | groups as records, objects as dictionaries; parser of AS numbers given from outside | invariants of nested folds, induction from the last group |
| C191-C196 | named prefixes as dictionaries with a log of allocations; networks, pools and allocation functions given from outside | invariant of a fold over named prefixes, case analysis per address family, lists of interfaces related pairwise |
| C183-C186 | interfaces, nodes and VLANs as records; nodes and AS numbers given from outside | case analysis per interface, first occurrences of a list as an invariant of a fold, sets of AS numbers without repetition |
| C187-C190 | VRFs and interfaces as records; prefix parsing, pool and interface names given from outside | invariant of a fold: old interfaces with new parents followed by new loopbacks, positions of VRFs with a loopback |

Properties that the code does not satisfy without extra conditions are proved with the
condition spelled out, next to a theorem named `..._refuted` that exhibits a witness for
the unconditional statement.
