{"id": "C01", "title": "Auto-assigned identifiers are fresh", "statement": "Within one identifier namespace (node ids, VLAN ids, VRF ids, VNIs, LAG ids), an automatically assigned identifier is never equal to a static identifier registered earlier nor to any identifier handed out earlier, whatever the interleaving of registering static ids, resetting the counter and asking for the next id.", "quantifier": "every finite history of register / set-counter / get-next operations on a namespace, every start and maximum value", "why_tests_cant": "the set of histories is infinite; a test sees a handful of topologies with a handful of ids", "anchors": ["netsim/modules/_dataplane.py: extend_id_set, set_id_counter, get_next_id"]}
{"id": "C02", "title": "Auto-assigned identifiers are the smallest free ones, in range, and the allocator gives up only when the range is full", "statement": "After the counter is set to start..max (start <= max), every automatically assigned identifier is inside start..max and is the smallest value of that range not in use, and the 'ran out of values' failure is reported exactly when every value of start..max is in use. (When start > max the range check does not protect the first value.)", "quantifier": "every start, max, set of static ids and number of allocations", "why_tests_cant": "exhaustion needs hundreds to millions of allocations and every possible pattern of holes", "anchors": ["netsim/modules/_dataplane.py: set_id_counter, get_next_id"]}
{"id": "C03", "title": "Node ids are unique, in range, and respect user-specified ids", "statement": "When node-id assignment ends without errors, all nodes have pairwise different ids in 1..250 (user ids assumed validated), no automatic id equals an id reserved by something else (e.g. a gateway id), and every node with a user-specified id keeps it; a duplicate user-specified id is always reported.", "quantifier": "every ordered list of nodes, with or without static ids, and every set of reserved ids", "why_tests_cant": "depends on the relative order and value of static and automatic ids over an unbounded node list", "anchors": ["netsim/augment/nodes.py: transform, reserve_id", "netsim/modules/_dataplane.py: get_next_id"]}
{"id": "C04", "title": "Prefixes taken from one address pool never overlap", "statement": "Any two prefixes handed out by different requests to one address pool (sequential 'next prefix' requests and 'n-th prefix' requests with different n, in any interleaving) are disjoint, have the requested prefix length and lie inside the pool prefix; repeated 'n-th' requests with the same n return the same prefix.", "quantifier": "every pool base/length, subnet length, and every finite interleaving of next / n-th requests", "why_tests_cant": "pools can hold millions of prefixes and requests interleave arbitrarily", "anchors": ["netsim/augment/addressing.py: create_pool_generators, get_nth_subnet, get_pool_prefix"]}
{"id": "C05", "title": "The n-th request of an otherwise unused pool depends only on n", "statement": "If a pool is only ever asked for n-th prefixes, the answer to request n is the n-th subnet after the initially skipped one, independent of the order and history of requests; so loopback addresses are a function of the node id. Sequential requests made in between shift the results (the unrestricted statement is false).", "quantifier": "every history of n-th requests", "why_tests_cant": "order independence ranges over all permutations of requests", "anchors": ["netsim/augment/addressing.py: get_nth_subnet, get_pool_prefix, create_pool_generators", "netsim/augment/nodes.py: loopback_interface"]}
{"id": "C06", "title": "Pool exhaustion is always reported and never wraps around", "statement": "A pool request fails with an error exactly when not enough unassigned subnets are left; a failed request never returns a prefix and later sequential requests keep failing.", "quantifier": "every pool size and every history of requests", "why_tests_cant": "requires running every pool to exhaustion", "anchors": ["netsim/augment/addressing.py: get_pool_prefix"]}
{"id": "C07", "title": "Automatically assigned interface addresses on a link are distinct, inside the prefix, and have host bits", "statement": "On a link without per-interface static addresses and with an automatically selected allocation policy (sequential, p2p, id-based, loopback), every interface gets an address inside the link prefix, different interfaces get different addresses (id-based: provided no node is attached twice), and on prefixes with more than two addresses none of them is the network or the broadcast address.", "quantifier": "every prefix size, interface list, node-id assignment and gateway id", "why_tests_cant": "policy choice depends on prefix size, node ids and number of interfaces; the corner cases are combinatorial", "anchors": ["netsim/augment/links.py: get_prefix_IPAM_policy, IPAM_sequential, IPAM_p2p, IPAM_id_based, IPAM_loopback"]}
{"id": "C08", "title": "Automatic addresses never collide with the first-hop gateway address", "statement": "When the allocation policy is selected automatically on a prefix with more than two addresses and non-negative gateway ids are reserved as node ids, no interface gets the address of the link's shared gateway, for positive and for negative gateway ids. Exceptions (two-address prefixes, a negative gateway id that leaves a single address, an explicitly requested allocation policy) are exhibited.", "quantifier": "every prefix size, gateway id, interface list and node-id assignment", "why_tests_cant": "off-by-one errors at the end of the prefix only show for particular size/gateway combinations", "anchors": ["netsim/augment/links.py: get_prefix_IPAM_policy, IPAM_sequential, IPAM_id_based, set_fhrp_gateway", "netsim/modules/gateway.py: process_gw_id"]}
{"id": "C09", "title": "Duplicate addresses on a link are always reported", "statement": "The duplicate address check reports an error exactly when two interfaces of the link, or an interface and the gateway, have the same textual address in the same address family; the number of reports equals the number of interfaces whose address already appeared.", "quantifier": "every list of interfaces with arbitrary (missing, boolean or string) addresses and optional gateway", "why_tests_cant": "all pairs in an unbounded interface list", "anchors": ["netsim/augment/links.py: check_duplicate_address"]}
{"id": "C10", "title": "Interface indices on a node are unique", "statement": "Interface indices assigned automatically are unique per node (regular interfaces among themselves, each virtual interface type among itself) and are the smallest free value from the device offset on; the fall-back value after the 'cannot get unique index' error is only used together with an error. A user-supplied index is not checked against existing ones (exhibited).", "quantifier": "every sequence of interface additions with and without user-specified indices", "why_tests_cant": "unbounded sequences of additions with holes", "anchors": ["netsim/augment/links.py: get_unique_ifindex, create_regular_interface, create_virtual_interface, add_node_interface"]}
{"id": "C11", "title": "Neighbor lists are complete and symmetric", "statement": "After the interfaces of a link are created, the neighbor list of every interface names exactly the other interfaces of that link, in link order, with their node, interface name and addresses; interface A lists B if and only if B lists A, and an interface never lists itself even when a node is attached twice.", "quantifier": "every list of interfaces on a link, including the same node attached several times", "why_tests_cant": "all pairs over unbounded lists, with repeated nodes", "anchors": ["netsim/augment/links.py: create_node_interfaces"]}
{"id": "C12", "title": "Link indices are unique and appended links do not disturb existing ones", "statement": "Link indices are consecutive from the configured start in link order, hence unique and increasing, and a link appended later with the 'next link index' keeps them unique and increasing.", "quantifier": "every link list and every number of appended links", "why_tests_cant": "induction over an unbounded list", "anchors": ["netsim/augment/links.py: set_linkindex, get_next_linkindex"]}
{"id": "C13", "title": "Dependency sort returns a permutation that respects dependencies", "statement": "Whenever sorting modules/plugins by dependencies succeeds, the result is a permutation of the input and every object comes after all objects of the list it depends on (for lists without duplicates, two or more elements).", "quantifier": "every list of names and every dependency relation", "why_tests_cant": "all graphs of all sizes", "anchors": ["netsim/utils/sort.py: dependency", "netsim/modules/__init__.py: sort_module_list", "netsim/augment/plugin.py: sort_plugins"]}
{"id": "C14", "title": "Dependency sort fails exactly on dependency cycles", "statement": "Sorting two or more objects terminates for every input; it fails with the loop error if and only if the dependency relation restricted to the list has a cycle (including a self-dependency), i.e. the watchdog never fires on acyclic input.", "quantifier": "every list of names and every dependency relation", "why_tests_cant": "termination and completeness quantify over all graphs", "anchors": ["netsim/utils/sort.py: dependency"]}
{"id": "C15", "title": "Recursive groups are always detected, and only those", "statement": "The group recursion check reports an error if and only if the nested-group relation reachable from the checked groups has a cycle.", "quantifier": "every groups dictionary", "why_tests_cant": "all directed graphs", "anchors": ["netsim/augment/groups.py: check_recursive_chain, check_recursive_groups"]}
{"id": "C16", "title": "Group ordering terminates, is a permutation and lists child groups first", "statement": "For groups without recursion the ordering of groups used for copying device, module, node data and config templates terminates, contains every group (not starting with underscore) exactly once, and every child group appears before the groups containing it.", "quantifier": "every acyclic groups dictionary", "why_tests_cant": "all acyclic graphs; termination", "anchors": ["netsim/augment/groups.py: reverse_topsort"]}
{"id": "C17", "title": "Group membership is exactly reachability through nested groups", "statement": "For groups without recursion (nesting at most 100 deep), the member list of a group contains a node if and only if the node is reachable from the group through nested groups; deeper acyclic nesting is rejected as recursive (exhibited).", "quantifier": "every groups dictionary and node set", "why_tests_cant": "reachability over all graphs", "anchors": ["netsim/augment/groups.py: group_members"]}
{"id": "C18", "title": "Node data wins over group data and specific groups win over general ones", "statement": "After copying group node data into nodes, an attribute set on the node is unchanged, an attribute set in the most specific group containing the node wins over less specific groups, and repeating the copy changes nothing.", "quantifier": "every node data tree, every sequence of group data trees", "why_tests_cant": "arbitrary nested data trees and group hierarchies", "anchors": ["netsim/augment/groups.py: copy_group_node_data"]}
{"id": "C19", "title": "Device of a node comes from the node or its first (most specific) group; modules accumulate without duplicates", "statement": "Copying group device/module into nodes never changes a device set on the node, otherwise sets the device of the first group (child groups first) that has the node as member and a device; the module list keeps the node's modules first, contains exactly the union, and gains no duplicates.", "quantifier": "every node, every ordered list of groups", "why_tests_cant": "arbitrary group lists", "anchors": ["netsim/augment/groups.py: copy_group_device_module"]}
{"id": "C20", "title": "Config template removal works on prior templates only", "statement": "In the resulting config list of a node a template is present exactly when some occurrence of it is not followed by '-' or by '-<name>'; the relative order is preserved and no removal request survives.", "quantifier": "every list of config template names and removal requests", "why_tests_cant": "all interleavings of additions and removals", "anchors": ["netsim/augment/groups.py: node_config_templates"]}
{"id": "C21", "title": "Data-tree merge: right operand wins, nothing else is lost", "statement": "Merging two data trees keeps every leaf of the right operand, and every leaf of the left operand whose path is not overridden (not present in the right operand and not shadowed by a non-dictionary there); no other leaf appears.", "quantifier": "every pair of nested dictionaries", "why_tests_cant": "all trees of all depths", "anchors": ["netsim/augment/config.py, netsim/modules/__init__.py, netsim/augment/groups.py (Box + Box merge used throughout)"]}
{"id": "C22", "title": "Data-tree merge laws", "statement": "Merge is idempotent (d + d = d), absorbing (d + (d + n) = d + n), has the empty dictionary as unit, and is associative when no key is a dictionary in one operand and a scalar in another; without that condition associativity fails (exhibited).", "quantifier": "all triples of nested dictionaries", "why_tests_cant": "all trees of all depths", "anchors": ["Box + Box merge used throughout netsim/augment and netsim/modules"]}
{"id": "C23", "title": "Module parameters follow node > topology > device > system defaults precedence", "statement": "The effective value of a module parameter on a node is the node value if set, else the topology value (unless it is a non-propagated attribute), else the device default, else the system default; merging twice changes nothing.", "quantifier": "every parameter path and every four data trees", "why_tests_cant": "all trees", "anchors": ["netsim/modules/__init__.py: merge_node_module_params, get_propagated_global_module_params"]}
{"id": "C24", "title": "Effective module attribute lookup honours precedence", "statement": "Looking up a module attribute over interface, link, node, topology, defaults returns the first truthy non-dictionary value when no dictionary precedes it, and the union of dictionaries with earlier objects winning when all truthy values are dictionaries. With mixed types a lower-precedence scalar overrides a higher-precedence dictionary (exhibited).", "quantifier": "every list of objects and attribute values", "why_tests_cant": "all lists of arbitrary values", "anchors": ["netsim/modules/__init__.py: get_effective_module_attribute"]}
{"id": "C25", "title": "Module list normalization, dependency closure check and ordering", "statement": "A module dependency error is reported for a node exactly when one of its modules requires a module the node does not have; the sorted module list contains exactly the known modules in dependency order.", "quantifier": "every module list and dependency table", "why_tests_cant": "all module sets", "anchors": ["netsim/modules/__init__.py: check_module_dependencies, sort_module_list"]}
{"id": "C26", "title": "File mapping round trip", "statement": "Converting a dictionary of file mappings into a list and back returns the original dictionary provided no source path contains a colon (targets may); and a list of 'source:target' entries with unique sources survives the round trip in the other direction.", "quantifier": "all strings and all dictionaries", "why_tests_cant": "all strings", "anchors": ["netsim/data/filemaps.py: dict_to_mapping, mapping_to_dict"]}
{"id": "C27", "title": "Environment variables map injectively onto default settings", "statement": "NETLAB_ environment variables are mapped to settings by turning underscore into dot and double underscore into underscore; dot-free variable names that map to the same setting are equal up to letter case, and a setting path can be expressed exactly when it has no upper-case letters, no empty component inside and no component starting with an underscore after the first one.", "quantifier": "all strings", "why_tests_cant": "all strings", "anchors": ["netsim/utils/read.py: include_environment_defaults"]}
{"id": "C28", "title": "Identifier sanitizer produces valid identifiers", "statement": "make_id returns a string made of letters, digits and underscores and leaves valid identifiers unchanged; for a text starting with a letter or an underscore the result is a valid identifier and make_id is idempotent on it. For other texts the result can start with a digit or be empty (exhibited), and make_id is not injective (exhibited).", "quantifier": "all strings", "why_tests_cant": "all strings", "anchors": ["netsim/utils/strings.py: make_id"]}
{"id": "C29", "title": "Integer and ASN validation accept exactly the documented values", "statement": "The integer validator accepts an integer exactly when it is within the minimum/maximum; the ASN validator accepts integers up to 2^32-1 and dotted ASNs a.b with both halves 16-bit, converting a.b to a*65536+b, injectively. Whatever is accepted as an ASN is a number below 2^32. Numeric strings bypass the integer range check, ASN 0 is accepted as an integer, and an ASN above 65535 is accepted as an integer but not as a plain number in a string (exhibited).", "quantifier": "all integers and all digit strings", "why_tests_cant": "infinite value sets", "anchors": ["netsim/data/types.py: must_be_int, must_be_asn, asdot_parsing, transform_asdot"]}
{"id": "C30", "title": "Lab instance registry: one directory per lab id", "statement": "Whatever the interleaving of netlab up / netlab down processes of different directories, including processes killed between steps: a registered lab id never moves to another directory, it disappears only in the removal step of netlab down, a second directory asking for a registered lab id aborts without starting anything, and a process starting its workload was registered with its own directory. As long as netlab down is not forced and does not overlap other commands for the same lab id, the workload of a lab id runs in one directory only, the registered one. Overlapping netlab down commands can remove a foreign registration and let one lab id run in two directories (exhibited).", "quantifier": "every number of processes, every interleaving and every crash point at lock-protected step granularity", "why_tests_cant": "schedules and crash points are infinite", "anchors": ["netsim/utils/status.py: change_status, remove_lab_status", "netsim/cli/up.py: lab_status_start, status_start_lab, run_up", "netsim/cli/down.py: lab_dir_mismatch, run", "netsim/cli/__init__.py: lab_status_update"]}
{"id": "C31", "title": "Status file updates are mutually exclusive and never lost", "statement": "Updates of the lab status file by concurrent processes are serialized: the final content is the result of applying the updates one after another in lock-acquisition order. The file is damaged only while it is being written or after a crash during the write (exhibited, all later updates fail); removing it with netlab status --reset during an update is undone by the update (exhibited).", "quantifier": "every number of processes, interleaving of lock/read/write/unlock steps, and crash points", "why_tests_cant": "schedules and crash points are infinite", "anchors": ["netsim/utils/status.py: change_status"]}
{"id": "C32", "title": "Working-directory lock is not an atomic test-and-set", "statement": "The netlab.lock check at the start of netlab up and the creation of the lock file are separate steps: when the commands in a directory run one after another (killed or not) and netlab down is not forced, a directory with a workload is locked, all of its workload belongs to the lab in the snapshot file, and netlab up without --snapshot is refused there; with two concurrent processes both can pass the check and start different labs (exhibited), and forced netlab down unlocks a directory with a running workload (exhibited).", "quantifier": "every sequence of sequential up/down runs with crashes; two-process interleavings for the counterexample", "why_tests_cant": "schedules", "anchors": ["netsim/cli/up.py: check_existing_lab, run_up", "netsim/utils/status.py: lock_directory, unlock_directory, is_directory_locked", "netsim/cli/down.py: run"]}
{"id": "C33", "title": "VLAN ids are unique across auto-assignment and VNI follow the VLAN id", "statement": "Auto-assigned VLAN ids never equal a static global or node VLAN id collected beforehand and stay within start..4094; a VNI assigned by default is start_vni + VLAN id when free and otherwise a fresh one, so VNIs are unique among VLANs and distinct from static VNIs.", "quantifier": "every VLAN dictionary", "why_tests_cant": "unbounded dictionaries with arbitrary static values", "anchors": ["netsim/modules/vlan.py: populate_vlan_id_set, validate_vlan_attributes", "netsim/modules/vxlan.py: register_static_vni, assign_vni"]}
{"id": "C34", "title": "VLAN forwarding mode precedence", "statement": "The forwarding mode of a node VLAN is the VLAN mode set on the node VLAN, else the node-wide mode, else the mode of the global VLAN, else the topology-wide mode, else irb; recomputing it does not change it.", "quantifier": "every combination of set/unset modes and repeated evaluation", "why_tests_cant": "idempotence over repeated calls from several code paths", "anchors": ["netsim/modules/vlan.py: set_node_vlan_mode, populate_node_vlan, compute_interface_vlan_mode"]}
{"id": "C35", "title": "VRF ids and route distinguishers are unique", "statement": "Auto-assigned VRF ids and route distinguishers are pairwise different and different from every static id/rd of global VRFs and of node VRFs when global VRFs exist; a node VRF copies the id/rd of the global VRF with the same name. Without global VRFs node-level static ids/rds are not reserved (collision exhibited).", "quantifier": "every VRF dictionary, AS number and order of allocation", "why_tests_cant": "unbounded dictionaries", "anchors": ["netsim/modules/vrf.py: populate_vrf_static_ids, get_next_vrf_id, set_vrf_auto_id, set_vrf_ids"]}
{"id": "C36", "title": "Default and symbolic route targets", "statement": "A VRF without import/export route targets uses its own RD; symbolic VRF names in import/export are replaced by the RD of that VRF (global VRF first), so two VRFs without explicit route targets and with different RDs do not exchange routes.", "quantifier": "every VRF dictionary with RD/RT lists", "why_tests_cant": "unbounded dictionaries and lists", "anchors": ["netsim/modules/vrf.py: set_import_export_rt"]}
{"id": "C37", "title": "VRF indices on a node are unique and ordered by VRF id", "statement": "Each VRF on a node gets a distinct local index, consecutive from 100, in increasing order of VRF id.", "quantifier": "every node VRF dictionary", "why_tests_cant": "unbounded dictionaries", "anchors": ["netsim/modules/vrf.py: node_post_transform"]}
{"id": "C38", "title": "Transit VNI assignment", "statement": "Automatically assigned EVPN transit VNIs are pairwise different and, except possibly for the first one (equal to the configured start value), different from all static transit VNIs; a static VNI equal to the start value listed after an automatic VRF collides (exhibited).", "quantifier": "every ordered list of VRFs with static/automatic/disabled transit VNI", "why_tests_cant": "order-dependent over unbounded lists", "anchors": ["netsim/modules/evpn.py: register_static_transit_vni, get_next_vni, vrf_transit_vni"]}
{"id": "C39", "title": "VXLAN flood lists are exact and symmetric", "statement": "For nodes with static ingress replication, the flood list of a VNI on a node contains exactly the VTEP addresses of the other nodes having a VXLAN-enabled VLAN with the same VNI in the same flooding domain, without duplicates and without its own VTEP; hence node A floods to B iff B floods to A (distinct VTEPs).", "quantifier": "every set of nodes, VLANs and VNIs", "why_tests_cant": "all pairs over unbounded node sets", "anchors": ["netsim/modules/vxlan.py: build_vtep_list, module_post_transform"]}
{"id": "C40", "title": "IBGP session topology", "statement": "Within an AS without route reflectors IBGP sessions form a full mesh; with route reflectors a session between two nodes exists iff at least one of them is a route reflector, so sessions are symmetric, no node peers with itself, and every client peers with every reflector. A node whose loopback (and every usable control-plane interface) has no address of an active address family is skipped as a neighbor but still lists its peers (one-sided sessions exhibited).", "quantifier": "every node set, AS assignment and reflector set", "why_tests_cant": "all pairs over all node sets", "anchors": ["netsim/modules/bgp.py: find_bgp_rr, build_ibgp_sessions"]}
{"id": "C41", "title": "EBGP sessions are symmetric with matching AS numbers", "statement": "An EBGP session is built towards an interface neighbor exactly when their (real AS, local AS) pairs differ and the neighbor runs BGP; the decision is symmetric, and the remote AS configured on one side equals the (local) AS used by the other side. Conditions: BGP enabled on both interfaces, default session types, both interfaces have addresses and no reported errors; without them one-sided sessions and asymmetric address families are exhibited.", "quantifier": "every pair of nodes with every combination of AS and local AS at node and interface level", "why_tests_cant": "combinatorial space of AS / local-AS settings on both ends", "anchors": ["netsim/modules/bgp.py: build_ebgp_sessions"]}
{"id": "C42", "title": "BGP AS list expansion", "statement": "When the bgp.as_list is processed without errors each node gets at most one AS from the list, the AS of a node is the one listing it as member, route reflectors are members, and AS/RR settings on the node win.", "quantifier": "every as_list and node set", "why_tests_cant": "unbounded lists", "anchors": ["netsim/modules/bgp.py: process_as_list"]}
{"id": "C43", "title": "Router id precedence", "statement": "The router id of a protocol on a node is the protocol setting, else the node setting, else the IPv4 loopback address, else an address from the router-id pool selected by node id; pool-derived router ids of different nodes differ. A pool-derived router id can be equal to the loopback address of another node (exhibited).", "quantifier": "every combination of settings and all node ids", "why_tests_cant": "unbounded node sets", "anchors": ["netsim/modules/_routing.py: router_id, get_router_id_prefix"]}
{"id": "C44", "title": "Routing policy import merge", "statement": "Importing global policy entries into a node policy keeps every node entry, adds exactly the global entries whose sequence number the node does not use, and yields a list sorted by sequence number whenever something was added; repeating the import changes nothing. A list that needs nothing from the global policy is left unsorted, and default sequence numbers can collide with configured ones (both exhibited).", "quantifier": "every pair of entry lists", "why_tests_cant": "unbounded lists", "anchors": ["netsim/modules/routing.py: import_routing_object, normalize_routing_entry"]}
{"id": "C45", "title": "Static route include processing terminates and expands completely", "statement": "Expanding static route includes stops after at most 20 passes for every input (cycles included); it succeeds exactly when all included lists exist and includes are nested at most 19 levels deep, and then no include remains and the result is the full recursive expansion. Every include loop is reported. Includes nested exactly 20 levels deep are expanded but still reported as an error (exhibited).", "quantifier": "every static route dictionary including cyclic ones", "why_tests_cant": "termination over all graphs", "anchors": ["netsim/modules/routing.py: include_global_static_routes, process_static_route_includes"]}
{"id": "C46", "title": "Prefix filters never become permit-all by accident", "statement": "After splitting a prefix list into address families each address family list is non-empty, contains the entries of that family in order, and when it would be empty it contains a single 'deny everything'. Prefix length limits out of range for the family are reported, and only those; limits given per address family are left as a dictionary in the list of a family without a value (exhibited).", "quantifier": "every prefix list", "why_tests_cant": "unbounded lists", "anchors": ["netsim/modules/routing.py: expand_prefix_list, expand_prefix_entry, adjust_pfx_min_max"]}
{"id": "C47", "title": "LAG interface indices", "statement": "Automatically assigned LAG interface indices on a node are unique and increasing, none of them is an index reserved on that node, and a link-level value not lower than the next free index of the node is used. Exceptions exhibited: an interface-level value does not advance the counter and can collide, a link-level value that is not higher is silently replaced, and the two switches of an MLAG pair can get different indices for the same MLAG link.", "quantifier": "every sequence of LAG links", "why_tests_cant": "unbounded sequences", "anchors": ["netsim/modules/lag.py: set_lag_ifindex"]}
{"id": "C48", "title": "Management addresses, MAC addresses and forwarded ports are unique per node", "statement": "Because they are computed from unique node ids, management addresses taken from the pool, management MAC addresses (ids up to 255) and forwarded host ports (service ranges at least as far apart as the highest id) of different nodes differ; a node whose id does not fit into the pool is reported; and the duplicate management address check reports nothing exactly when no address (as written) is used twice. Exception exhibited: a node id can select the broadcast address of the management network.", "quantifier": "every node set with unique ids", "why_tests_cant": "all pairs over all node sets", "anchors": ["netsim/augment/nodes.py: augment_mgmt_if, check_duplicate_mgmt_addr", "netsim/providers/__init__.py: get_forwarded_ports"]}
{"id": "C49", "title": "Search path and file lookup return the first match", "statement": "The absolute search path lists exactly the directories named by its entries, once each, in the order of the first entries naming them, and making it absolute again changes nothing; an empty entry raises an exception. File lookup returns the first existing candidate in path order, or nothing iff none exists. Exceptions exhibited: for a topology read from the package, or named without a directory, 'topology:x' is not directory x next to the topology file.", "quantifier": "every search path and file system content", "why_tests_cant": "unbounded lists", "anchors": ["netsim/utils/files.py: absolute_search_path, find_file"]}
{"id": "C50", "title": "Versioned topology selection picks the newest applicable version", "statement": "Among the versioned variants of a topology the one with the highest version not exceeding the running netlab version is selected; the plain topology is used iff none is applicable, and processing stops iff a file has an invalid version. The selected name is one of the files found when versions are written canonically (a version with a leading zero is exhibited as an exception).", "quantifier": "every version dictionary and running version", "why_tests_cant": "unbounded dictionaries", "anchors": ["netsim/utils/versioning.py"]}
{"id": "C51", "title": "Errors accumulate and processing stops at the next checkpoint", "statement": "A transformation that reported at least one error since the reference count never proceeds past the following exit-on-error checkpoint, whatever operations happened in between; a program with default checkpoints ends prematurely exactly when it calls fatal, reports an error requesting an exit, or reports an error in front of a checkpoint; warnings never end it. Exceptions exhibited: repeating warnings reports them again, and an unknown output format of 'netlab create' is not followed by a checkpoint.", "quantifier": "every sequence of report/checkpoint operations", "why_tests_cant": "unbounded sequences", "anchors": ["netsim/utils/log.py: error, exit_on_error, get_error_count"]}
{"id": "C52", "title": "Device inheritance: child settings win and resolution is complete", "statement": "Resolving child devices against their parents terminates on every parent relation (loops are broken or reported), child attributes win over inherited ones, and each device receives everything inherited through the whole parent chain.", "quantifier": "every device dictionary and parent relation", "why_tests_cant": "all parent graphs of all depths", "anchors": ["netsim/augment/devices.py: process_child_device, process_child_devices"]}
{"id": "C53", "title": "Provider-specific device attributes win", "statement": "A device attribute lookup returns the provider-specific value when it is present and not a dictionary, merges dictionaries with provider values winning, and falls back to the generic device value.", "quantifier": "every device data tree", "why_tests_cant": "all trees", "anchors": ["netsim/augment/devices.py: get_device_attribute, get_consolidated_device_data"]}
{"id": "C54", "title": "Plugin config ordering is a stable partition", "statement": "Reordering a node's extra configuration puts templates provided by plugins first without changing the relative order in both groups, losing or duplicating entries. The topology-wide list contains every template once, in the order used by the nodes, and sorting fails exactly when nodes use templates in contradicting order.", "quantifier": "every config list and plugin set", "why_tests_cant": "unbounded lists", "anchors": ["netsim/augment/nodes.py: cleanup", "netsim/augment/plugin.py: sort_extra_config"]}
{"id": "C55", "title": "Nodeset expansion", "statement": "A nodeset expression without error expands to a list containing exactly the nodes selected by its elements (names, groups, globs); unknown names and globs without match are always reported. The list is duplicate-free unless a node belongs to a group both directly and through a nested group (exhibited).", "quantifier": "every nodeset list, node list and group membership", "why_tests_cant": "unbounded lists and patterns", "anchors": ["netsim/cli/_nodeset.py: parse_nodeset, add_glob, get_nodeset"]}
{"id": "C56", "title": "Bridge names are unique and fit the Linux limit", "statement": "The Linux bridge names generated for links of one topology are pairwise different, and have at most 15 characters for link indices up to 9999, whatever the topology name; index 10000 with a ten-character name breaks the limit (exhibited).", "quantifier": "every topology name and link index", "why_tests_cant": "unbounded indices and names; long names and large labs are not in the test suite", "anchors": ["netsim/augment/links.py: set_link_bridge_name"]}
{"id": "C57", "title": "Link types match the number of attached nodes", "statement": "The link type selected by default always passes the link type check, and the check accepts a link exactly when it has at least one node and the number of nodes required by its type (p2p two, stub and loopback one).", "quantifier": "every link type, node count and host count", "why_tests_cant": "unbounded node counts", "anchors": ["netsim/augment/links.py: get_default_link_type, check_link_type"]}
{"id": "C58", "title": "Overlapping interface names are always reported", "statement": "The interface name check of a node reports an error exactly when two of its interfaces have the same name, and it reports every interface whose name was used by an earlier interface.", "quantifier": "every interface list", "why_tests_cant": "unbounded lists of user-supplied and generated names", "anchors": ["netsim/augment/nodes.py: check_unique_ifnames"]}
{"id": "C59", "title": "File mappings with dotted names are normalized", "statement": "A dictionary of file mappings in which dots in file names were interpreted as nested dictionaries is turned back into a flat dictionary with the original dotted names, as long as no two names share their first component (exhibited otherwise); the list form is accepted exactly when every entry is a string with exactly one colon.", "quantifier": "all dictionaries of file names and all lists", "why_tests_cant": "unbounded nesting and list length", "anchors": ["netsim/data/filemaps.py: normalize_file_mapping, mapping_to_dict, box_to_dict"]}
{"id": "C60", "title": "Attribute validation stores only valid values and is stable", "statement": "Validating one attribute never changes another one; when no error is reported the attribute is unset or has a value returned by the validator and, when the type has valid_values, all its values are among them; a rejected value stays in place and is reported; an unset attribute without an empty value stays unset; validating the result again changes nothing for validators that accept their own results (string, dict, list, bool, asn, id, unlimited int, ipv4 other than id). Identifier, NET, RD and list validators accept exactly the documented shapes. A limited integer given as an out-of-range string passes once and fails on the second validation (exhibited), and RDs have no range limits (exhibited).", "quantifier": "every validator, option set, attribute name and parent dictionary", "why_tests_cant": "infinite value sets; the wrapper is generic in the validator", "anchors": ["netsim/data/types.py: type_test, get_value_to_check, post_validation, check_valid_values, must_be_id, must_be_net, must_be_rd, must_be_list"]}
{"id": "C61", "title": "IPv4 validation accepts exactly canonical addresses", "statement": "An IPv4 address is accepted exactly when it is the canonical dotted notation of a 32-bit number, so different accepted strings are different addresses; an integer identifier is converted to the address with that number and rejected outside 32 bits; booleans and integers are accepted only for the uses that allow them; prefixes of subnets and of prefix attributes have all host bits zero.", "quantifier": "all strings, integers and uses", "why_tests_cant": "infinite value sets", "anchors": ["netsim/data/types.py: must_be_ipv4, common_addr_parse"]}
{"id": "C62", "title": "Status updates change one lab and only append to its log", "statement": "Updating the status of a lab leaves the entries of other labs unchanged, never changes the directory of a registered lab, adds at most one line to its log and removes none; after a status change the status and the last log line show the new status.", "quantifier": "every status file content, lab, directory and status text", "why_tests_cant": "unbounded histories", "anchors": ["netsim/cli/__init__.py: lab_status_update, lab_status_change"]}
{"id": "C63", "title": "Static VRF ids and route distinguishers are kept", "statement": "A VRF id or RD configured in a global VRF, in a VRF present only on a node, or in a node VRF having both of them is unchanged by the VRF transformation; a node VRF of a global VRF with only an RD ends with the RD of the global VRF and an empty RD of a node VRF stays empty (both exhibited, contrary to docs/module/vrf.md).", "quantifier": "every topology transformed without reported errors", "why_tests_cant": "combinations of global and node VRFs", "anchors": ["netsim/modules/vrf.py: set_vrf_ids, normalize_vrf_ids, set_node_vrf_ids"]}
{"id": "C64", "title": "Transit VNIs and VLAN VNIs", "statement": "Static transit VNIs are accepted exactly when they are pairwise different and different from the VNIs used by VLANs, and are then added to the used VNIs; automatically assigned transit VNIs are not compared with VLAN VNIs, so one can equal a static VLAN VNI (exhibited).", "quantifier": "all dictionaries of VRFs and sets of used VNIs", "why_tests_cant": "unbounded numbers of VRFs and VNIs", "anchors": ["netsim/modules/evpn.py: register_static_transit_vni, vrf_transit_vni"]}
{"id": "C65", "title": "Missing VLANs of asymmetric IRB VRFs", "statement": "Every EVPN VLAN of an asymmetric IRB VRF missing on a node is reported; reported VLANs are EVPN VLANs missing on the node whose VRF name contains the name of the checked VRF, so a VLAN of another VRF can be reported (exhibited).", "quantifier": "all VRF names, VLANs and nodes", "why_tests_cant": "all names", "anchors": ["netsim/modules/evpn.py: check_asym_vlan"]}
{"id": "C66", "title": "EVPN route distinguishers within a node", "statement": "Two EVPN instances (VLANs or VRFs) of a node without configured RDs have the same RD exactly when they have the same EVI; a VLAN and a VRF having the same id get the same RD (exhibited).", "quantifier": "all nodes", "why_tests_cant": "all combinations of VLAN and VRF ids", "anchors": ["netsim/modules/evpn.py: set_local_evpn_rd, vlan_based_service, vrf_irb_setup"]}
{"id": "C67", "title": "Route reflector cluster ids", "statement": "Route reflectors of an AS without a configured cluster id share one cluster id, the router id of one of them that is smallest as text; configured cluster ids and nodes that are not route reflectors do not change. It need not be the lowest router id, although the code says so (10.0.0.10 wins over 10.0.0.9, exhibited).", "quantifier": "every lab and AS", "why_tests_cant": "all route reflector sets and router ids", "anchors": ["netsim/modules/bgp.py: build_bgp_rr_clusters"]}
{"id": "C68", "title": "Activation of address families on BGP neighbors", "statement": "The address family flag of a node is set exactly when it is configured or a global neighbor has an address in it; an address family of a neighbor is activated exactly when the session type is listed in bgp.activate. Listing ibgp does not activate local-AS IBGP sessions, contrary to the intention written in the code (exhibited).", "quantifier": "every neighbor list and activation setting", "why_tests_cant": "all combinations of session types and address families", "anchors": ["netsim/modules/bgp.py: build_bgp_sessions, activate_bgp_default_af"]}
{"id": "C69", "title": "EBGP link role", "statement": "A link without a role gets the EBGP role exactly when nodes of at least two different autonomous systems are attached to it; a configured role is kept.", "quantifier": "all links", "why_tests_cant": "unbounded numbers of attached nodes", "anchors": ["netsim/modules/bgp.py: ebgp_role_link"]}
{"id": "C70", "title": "Unique router ids of VRF instances", "statement": "On devices that need different router ids in every routing process, the router ids assigned to VRF instances without a configured router id are different from each other and from the router ids already in use; configured router ids are kept.", "quantifier": "every set of VRFs and interfaces addresses", "why_tests_cant": "unbounded numbers of VRF instances", "anchors": ["netsim/modules/_routing.py: get_unique_router_ids"]}
{"id": "C71", "title": "AS path list numbers", "statement": "For every sequence of numbering requests, each AS path list gets a positive number used by no other list, and a number once assigned never changes.", "quantifier": "every sequence of list names and every previous assignment", "why_tests_cant": "unbounded sequences of requests", "anchors": ["netsim/modules/routing.py: number_aspath_acl"]}
{"id": "C72", "title": "Route imports in VRFs", "statement": "On devices with VRF-aware imports a routing protocol of a VRF without configured imports gets exactly the supported sources used in that VRF, and configured imports are kept; on other devices no import is added. When a protocol turns out to be inactive in a VRF its automatic imports disappear and configured ones are reported. Exceptions exhibited: the automatic import of RIP survives, and a configured VRF import on a device without support crashes instead of being reported.", "quantifier": "every set of VRFs, protocols and supported sources", "why_tests_cant": "all combinations of protocols and VRFs", "anchors": ["netsim/modules/_routing.py: process_imports, remove_vrf_imports, is_vrf_protocol"]}
{"id": "C73", "title": "Sides of a LAG link", "statement": "When the member links of a LAG are split into two sides, no side lists a node twice, every member link connects a node of one side to a node of the other one, and the two sides together contain exactly the nodes of the member links. Not guaranteed (exhibited): a LAG between one node and three nodes is accepted, and a triangle of member links puts a node on both sides.", "quantifier": "every list of LAG member links and every set of MLAG pairs", "why_tests_cant": "unbounded lists of member links and node names", "anchors": ["netsim/modules/lag.py: create_lag_interfaces"]}
{"id": "C74", "title": "MLAG peer addresses and MAC addresses", "statement": "The two switches of an MLAG peer link get the two different addresses of a two-address range and each names the address of the other one as its peer; MLAG MAC addresses of two peer groups are equal exactly when the group numbers are equal modulo 65536.", "quantifier": "every MLAG peer link and every pair of peer groups", "why_tests_cant": "all node ids, prefixes and group numbers", "anchors": ["netsim/modules/lag.py: populate_mlag_peer"]}
{"id": "C75", "title": "Removing unmanaged devices", "statement": "Removing unmanaged devices keeps exactly the managed nodes; every remaining link mentions exactly its managed nodes in the original order; links without unmanaged nodes do not change. If node counts match the interface lists, exactly the links with a managed node remain, their counts match again, and a two-node link that lost a node becomes a stub or LAN link with a bridge. Exception exhibited: a link with an artificial node count survives without nodes.", "quantifier": "every set of nodes and links", "why_tests_cant": "unbounded sets of nodes and links", "anchors": ["netsim/augment/nodes.py: ghost_buster", "netsim/augment/links.py: get_default_link_type, set_link_bridge_name"]}
{"id": "C76", "title": "Interfaces running an IGP", "statement": "After a node transformation of OSPF, IS-IS, RIP or EIGRP without errors, protocol data are present exactly on those node interfaces outside VRFs that are not external, not disabled for the protocol and have an address (IS-IS: a usable one) or a DHCP client; nothing else about the interfaces changes.", "quantifier": "every node, interface list and set of running neighbors", "why_tests_cant": "unbounded interface lists and all combinations of attributes", "anchors": ["netsim/modules/_routing.py: external, remove_unaddressed_intf, build_vrf_interface_list, remove_vrf_interfaces, igp_post_transform", "netsim/modules/ospf.py: node_post_transform", "netsim/modules/isis.py: node_post_transform", "netsim/modules/ripv2.py: node_post_transform", "netsim/modules/eigrp.py: node_post_transform"]}
{"id": "C77", "title": "VRF instances of an IGP", "statement": "A VRF instance of a VRF-aware IGP remains exactly when it is not disabled and it is requested (a plain True also needs an enabled interface in the VRF) or one of its interfaces has a neighbor running the protocol; it then lists exactly the enabled interfaces of the VRF in their order, each with protocol data. Exception exhibited: module lists shrink during the transformation, so the same lab with nodes in another order can have an active or a removed instance.", "quantifier": "every node with any VRFs and interfaces", "why_tests_cant": "unbounded VRF and interface lists", "anchors": ["netsim/modules/_routing.py: build_vrf_interface_list", "netsim/modules/__init__.py: node_transform"]}
{"id": "C78", "title": "Passive interfaces and network types", "statement": "Every interface an IGP runs on has a passive flag: the configured one, otherwise true exactly for passive, external and stub links and for stub roles without a neighbor running the protocol. Two routers connected by a link and keeping the protocol always agree on unconfigured flags. Network types are the configured ones or point-to-point with a single neighbor, and are among those the protocol allows when no error is reported.", "quantifier": "every lab, node and interface", "why_tests_cant": "unbounded labs; needs the relation between two nodes processed at different times", "anchors": ["netsim/modules/_routing.py: passive, is_true_stub, network_type"]}
{"id": "C79", "title": "IGP address families and removal of unused IGPs", "statement": "An IGP has data in the node exactly when a global interface runs it; its address families are the configured ones or those of the loopback and of the interfaces. The module stays on the node exactly when an address family is used or a VRF instance remains, and no other module is removed. Exception exhibited and proved: isis.bfd set to true without isis.af on a node with the bfd module removes IS-IS from every node without VRFs.", "quantifier": "every node, interface list and device", "why_tests_cant": "unbounded interface lists; interaction of two modules", "anchors": ["netsim/modules/_routing.py: routing_af, remove_unused_igp, igp_post_transform", "netsim/modules/bfd.py: multiprotocol_bfd_link_state"]}
{"id": "C80", "title": "BFD, unnumbered interfaces and RIP timers", "statement": "When bfd is configured for a protocol on a node, BFD is enabled on an interface exactly when it is not disabled there and requested on the interface or by a node with the bfd module; IS-IS enables it only for address families used on the interface. Without the bfd module and interface requests there is no BFD; exception exhibited: an interface request survives without the module. OSPF without errors runs over unnumbered interfaces with exactly one neighbor, on devices supporting them. RIP timers are set all or none, keeping configured values.", "quantifier": "every node, interface list and device", "why_tests_cant": "unbounded interface lists and all combinations of flags", "anchors": ["netsim/modules/bfd.py: bfd_link_state, multiprotocol_bfd_link_state", "netsim/modules/ospf.py: ospf_unnumbered", "netsim/modules/ripv2.py: adjust_rip_timers"]}
{"id": "C81", "title": "First-hop gateways run exactly where they are wanted", "statement": "On a link with nodes using the gateway module, an interface of such a node gets a first-hop gateway exactly when the gateway is not switched off on the link or on the interface and, if the link says nothing, the interface asks for it. Interface settings on a link with gateway: False are ignored, with a warning for exactly those nodes; no other warning is printed, and valid settings never cause an exception.", "quantifier": "every link, every list of attached nodes and every combination of link and interface gateway settings", "why_tests_cant": "unbounded number of interfaces; result depends on all interfaces of the link", "anchors": ["netsim/modules/gateway.py: link_pre_link_transform", "netsim/augment/links.py: copy_link_gateway, interface_data"]}
{"id": "C82", "title": "Parameters and address of a first-hop gateway", "statement": "Every parameter of an interface gateway (other than its addresses) comes from the first of the interface, the link and the global settings that says something about it. All gateways on the link, and the attached hosts, get the same address, given by the gateway id of the link or else the global one. The link is accepted exactly when that id is a non-zero integer other than -1 that exists in every prefix, there is a protocol, and a protocol set on the link is a known one.", "quantifier": "every link, attached nodes, global settings and prefixes", "why_tests_cant": "arbitrary nested dictionaries merged in three layers", "anchors": ["netsim/modules/gateway.py: link_pre_link_transform, check_gw_protocol", "netsim/augment/links.py: set_fhrp_gateway, copy_link_gateway, interface_data"]}
{"id": "C83", "title": "First-hop gateway parameters of a node", "statement": "Every first-hop gateway protocol used on a node and not supported by its device is reported exactly once. Otherwise, interfaces keep only the parameters of the protocol they use, the IPv4 address is removed exactly from anycast interfaces with anycast.unicast set to False, node parameters of unused protocols are removed, and the module is removed (with a warning) exactly when no interface uses a first-hop gateway. Node-level parameters are used only when the interface, link or global settings have no such parameter; exhibited: vrrp.group set on a node has no effect.", "quantifier": "every node, interface list and device", "why_tests_cant": "unbounded interface lists and nested settings", "anchors": ["netsim/modules/gateway.py: node_post_transform, check_protocol_support, cleanup_unicast_ip, cleanup_intf_protocol_parameters", "netsim/modules/__init__.py: remove_module"]}
{"id": "C84", "title": "Node identifiers avoid gateway identifiers", "statement": "The identifiers reserved for gateways are exactly the non-negative integer gateway ids given globally, on links and on global VLANs. No node gets one of them, and a node with such a user-defined identifier is reported as a duplicate.", "quantifier": "every topology: global settings, links, VLANs and nodes", "why_tests_cant": "unbounded lists of links and VLANs", "anchors": ["netsim/modules/gateway.py: process_gw_id, module_init", "netsim/augment/nodes.py: reserve_id, transform"]}
{"id": "C85", "title": "Every interface gets the MTU the user asked for", "statement": "After interfaces are created and cleaned up, an interface that is not a loopback uses the MTU of the interface, else of the node, else the lab-wide default, whether the value is kept on the interface or left to the system MTU; loopbacks have no MTU and no interface repeats the system MTU. Errors are reported exactly when the system MTU or a different interface MTU is out of limits; without errors every MTU in use is within the limits of the device and at least 1280 on IPv6 interfaces, and the IP MTU flag marks exactly the interfaces whose MTU is too low for the hardware.", "quantifier": "every device feature set, lab, node and interface MTU (positive values) and every interface list", "why_tests_cant": "unbounded interface lists, two passes with different rules and several limits", "anchors": ["netsim/augment/nodes.py: augment_node_system_data, cleanup_mtu", "netsim/augment/links.py: add_node_interface"]}
{"id": "C86", "title": "Address families of a node", "statement": "A node is marked as using IPv4 (IPv6) when its loopback or at least one of its interfaces has such an address; the mark is not changed otherwise, and nothing else in the node changes.", "quantifier": "every loopback, interface list and initial set of address families", "why_tests_cant": "unbounded interface lists", "anchors": ["netsim/augment/links.py: set_node_af"]}
{"id": "C87", "title": "Static routes of hosts", "statement": "A host without static routes gets, for each of its address families not configured with DHCP (or, for IPv6, with router advertisements), exactly the routes of the list that have a prefix in that family; the list is the user-defined one or the prefixes of all address pools but mgmt and router_id. The routing module is enabled on exactly those hosts, and in the topology if there is one. Other nodes do not change. The claim that the step always completes is refuted: it fails with an exception exactly when a host has two DHCP client interfaces of one address family.", "quantifier": "every topology: route list, address pools, modules and nodes", "why_tests_cant": "unbounded lists of nodes, interfaces and routes", "anchors": ["netsim/augment/nodes.py: default_static_route_list, add_host_static_routes", "netsim/data/__init__.py: append_to_list"]}
{"id": "C88", "title": "Daemon configuration files in use are kept", "statement": "The cleanup of daemon configuration files keeps exactly the internal mappings (names starting with an underscore) and those whose name, with @ read as a dot, is the device, a module or a configuration template of the node. The order and the values are not changed.", "quantifier": "every mapping, device, module list and template list", "why_tests_cant": "unbounded dictionaries modified while being traversed", "anchors": ["netsim/augment/nodes.py: cleanup_daemon_config"]}
{"id": "C89", "title": "Type and role of a link", "statement": "A link with a single node becomes a loopback exactly when its device can create loopbacks and the device setting (or else the global one) asks for it; any other explicit type is kept. Without one, a link is a LAN when it has more than two nodes, a host or DHCP clients, and otherwise point-to-point with two nodes and a stub with fewer. A link without a role becomes a stub exactly when it has at most one router and is neither a VLAN link nor a loopback. A link is accepted exactly when it has a node and its number of nodes suits its type, and a link without an explicit type is rejected only when it has no nodes.", "quantifier": "every link, attached nodes, device and global setting", "why_tests_cant": "unbounded number of nodes", "anchors": ["netsim/augment/links.py: count_link_nodes, set_link_loopback_type, get_default_link_type, set_link_type_role, check_link_type"]}
{"id": "C90", "title": "Unnumbered interfaces and descriptions", "statement": "An error is reported for exactly those unnumbered IPv4 and LLA-only IPv6 interfaces the device does not support. Unnumbered IPv4 interfaces, and no other, refer to the loopback interface and its address. The description of an interface with two or more neighbors fits in the maximum length, and it names all neighbors when there is room for them.", "quantifier": "every node, interface list, device and list of neighbors", "why_tests_cant": "unbounded lists of interfaces and neighbors, texts of any length", "anchors": ["netsim/augment/links.py: interface_feature_check, set_parent_interface, create_ifname"]}
{"id": "C91", "title": "DHCP clients are recognised on every interface that asks for one", "statement": "Before links are transformed, an interface of a known node becomes a DHCP client in an address family exactly when its address is 'dhcp', its own client setting is true, or the link asks for clients, the interface does not refuse and is not a bridged or IRB VLAN interface; an address of 'dhcp' is removed and other addresses stay. An address of 'dhcp' on a link that disables DHCP is reported. A link is a DHCP subnet, and the node uses the dhcp module, exactly when it has such an active client. On links without VLAN interfaces and errors, a link is a DHCP subnet exactly when one of its interfaces is a client; on IRB interfaces this fails.", "quantifier": "every link, list of interfaces and link-level client setting", "why_tests_cant": "unbounded number of interfaces with three sources of settings per address family", "anchors": ["netsim/modules/dhcp.py: link_pre_transform"]}
{"id": "C92", "title": "DHCP checks accept exactly the functions the device supports", "statement": "The DHCP check of a node succeeds exactly when the device can be a server if the node is one, every client left after clients on servers and relays are removed is supported by the device, and every relay is supported, uses only DHCP servers, and names a supported VRF present on the node (or global). Exactly the unsupported functions are reported, including relaying in an address family the device cannot relay. On nodes that pass, client interfaces have no static address in that family and no other address is lost. A client setting of False still needs device support.", "quantifier": "every node, interface list, feature set and set of server nodes", "why_tests_cant": "unbounded number of interfaces, servers and VRFs", "anchors": ["netsim/modules/dhcp.py: check_protocol_support, module_post_transform"]}
{"id": "C93", "title": "DHCP relays forward to the addresses of all their servers", "statement": "On an interface with relay servers, for each address family with a DHCP client among the neighbors, the relay targets are the addresses of the listed servers in order; servers without a usable endpoint or without an address in that family are left out and reported, and nothing else is reported. Other interfaces and address families are unchanged.", "quantifier": "every interface, list of servers, list of neighbors and endpoint function", "why_tests_cant": "unbounded lists of servers and neighbors", "anchors": ["netsim/modules/dhcp.py: set_dhcp_relay"]}
{"id": "C94", "title": "DHCP pools cover the client links and exclude static addresses", "statement": "A DHCP pool exists exactly for the links with DHCP clients (by VLAN name or link name). The excluded addresses of a pool are exactly the addresses of non-client interfaces on its links in the families with clients, and the addresses of the VLAN interfaces of its VLAN when the VLAN has a usable prefix or gateway. Without reported mismatches, a pool has the prefixes of all its links. Gateway, name and VRF of a pool come from its last link that gives one, otherwise from its VLAN (gateway and VRF) or its identifier (name). Links whose names map to one identifier share a pool, with a mismatch error.", "quantifier": "every list of VLANs, nodes and links, and every identifier function", "why_tests_cant": "unbounded number of VLANs, nodes, interfaces and links", "anchors": ["netsim/modules/dhcp.py: build_topology_dhcp_pools"]}
{"id": "C95", "title": "Attribute validation reports exactly the unknown, misplaced and missing attributes", "statement": "Validating an object reports an attribute as invalid exactly when it is not internal, not defined for the object and not a module (or inside a module), as an attribute of a module that is not enabled exactly when it names such a module, and as missing exactly when it is required and absent. Attributes are never removed, and ignored or rejected attributes keep their values. The errors found in a part of the object carry the path of that part. In a non-empty dictionary with defined keys, exactly the unknown keys are reported, missing keys only when no key is unknown; values nested in such dictionaries are validated however deep they are, and all their errors are reported. These are statements about validations that return; a fatal error or an exception has no report.", "quantifier": "every set of attribute definitions, data types, enabled modules, namespaces and object", "why_tests_cant": "definitions and data nest without bound and refer to each other by name", "anchors": ["netsim/data/validate.py: validate_attributes, validate_item, validate_dictionary, check_required_keys"]}
{"id": "C96", "title": "Data that pass validation conform to the attribute definitions", "statement": "When validation reports no errors, the resulting object conforms to its definitions at every level: every attribute is ignored, defined with a conforming value, or an enabled module with conforming contents; required attributes are present; no two attributes exclude each other; values are what their type (or alternate type) makes of some value and belong to the accepted values; keys and values of dictionaries and list elements have the required types; required modules are enabled. Three exceptions are exhibited: an empty dictionary and a module without attributes are accepted although attributes are required, and a key converted to zero suppresses the check for missing keys. A conflict is reported exactly when two attributes of an object exclude each other, and lists all attributes excluded by the reported one.", "quantifier": "every set of attribute definitions, data types, enabled modules and object", "why_tests_cant": "definitions and data nest without bound", "anchors": ["netsim/data/validate.py: validate_attributes, validate_item, validate_dictionary, validate_list, validate_alt_type, check_valid_with, check_required_keys"]}
{"id": "C97", "title": "Attribute namespaces are followed completely", "statement": "The namespaces of an object are the first one asked for and every defined namespace reachable from those asked for through the namespace lists of the definitions, each once and the first one in front; reachable namespaces that lead back to themselves stop netlab with a fatal error.", "quantifier": "every set of attribute definitions and every list of namespaces", "why_tests_cant": "chains of namespaces of any length, with cycles", "anchors": ["netsim/data/validate.py: get_attribute_namespaces"]}
{"id": "C98", "title": "Valid attributes are those of all namespaces", "statement": "The attributes accepted for an object are those of all its namespaces and of their internal extensions, except those a secondary namespace does not propagate; without internal extensions, an attribute is required exactly when the first namespace requires it, and simple definitions in the first namespace are not changed by the others. Building the list leaves the definitions unchanged unless a secondary namespace has a list of attributes that are not propagated: then required attributes lose the requirement in the definitions themselves. The attributes of providers and tools are added to nodes, links and interfaces exactly as they are offered, and accept anything when a provider or tool has no definitions.", "quantifier": "every set of attribute definitions and every list of namespaces", "why_tests_cant": "definitions are merged over any number of namespaces with nested values", "anchors": ["netsim/data/validate.py: get_valid_attributes, remove_required_flag, get_object_attributes"]}
{"id": "C99", "title": "Values are converted by their type, list elements are not", "statement": "Every defined attribute of an object is validated with its own definition. A value of a simple type other than None, True and False becomes what its type makes of it and is reported exactly when the type rejects it or the result is not an accepted value. The elements of a list of simple values are all checked and reported by position from one; an accepted element keeps its original text unless the converted value is empty or zero, and a rejected element is replaced by None.", "quantifier": "every attribute definition, data type, object and list", "why_tests_cant": "unbounded objects and lists", "anchors": ["netsim/data/validate.py: validate_attributes, validate_item, validate_list", "netsim/data/types.py: type_test, get_value_to_check"]}
{"id": "C100", "title": "Validation ends, except for self-replacing values, and crashes on some False values", "statement": "Validation needs at most twice as many nested calls as the data are deep, when the values replacing True and list elements are not nested and no dictionary has both a value type and defined keys; the result does not depend on the recursion limit otherwise. A definition whose True value contains True for itself never ends. An object with the value False for an attribute that has a replacement for True and a type without a replacement for False is never validated successfully: the attribute is removed from the dictionary being walked.", "quantifier": "every set of attribute definitions and data types with these conditions, and all data", "why_tests_cant": "unbounded nesting of data and definitions", "anchors": ["netsim/data/validate.py: validate_attributes, validate_item, validate_dictionary, validate_list", "netsim/data/types.py: get_value_to_check"]}
{"id": "C101", "title": "Static routes are processed independently", "statement": "Processing the static routes of a node gives, for every route, the same outcome as processing it on the initial interfaces of the node: gateway data cached on interfaces while resolving other routes do not change it. The final list is the updated routes without those marked for removal, followed by the routes added for the next hops; errors are those of the routes in order; the unnumbered-neighbor warning is reported at most once. Processing raises an exception exactly when one of the routes does.", "quantifier": "every topology, node, list of static routes and list of interfaces, any behaviour of the IP address library", "why_tests_cant": "the gateway cache links all pairs of routes through the interfaces; tests have a few routes per node", "anchors": ["netsim/modules/routing.py: process_routing_data, check_static_routes, cleanup_static_routes, resolve_gateway_nexthop"]}
{"id": "C102", "title": "Node and address next hops of static routes are exact", "statement": "When a route is processed without an error: a static route through a neighboring node becomes, for each address family of the route, one route per distinct next hop: the addresses of that node on the interfaces in the VRF of the next hop, in order, at most the maximum number of next hops the device supports, numbered from zero. When there are none the node is not a neighbor in another VRF (that is an error) and the next hop is its control-plane address: the loopback of a router, otherwise the first interface. A route with an address next hop becomes one route per interface in the VRF whose subnet contains the address; the address is kept as an indirect next hop if there is none.", "quantifier": "every topology, node, static route and list of interfaces", "why_tests_cant": "any number of parallel links, VRFs and address families", "anchors": ["netsim/modules/routing.py: resolve_node_nexthop, resolve_nexthop_intf, create_nexthop_data, extract_nh_from_list, check_static_routes", "netsim/modules/_routing.py: get_remote_cp_endpoint"]}
{"id": "C103", "title": "Gateway next hops of static routes and the gateway of last resort", "statement": "When a route is processed without an error: a route through the default gateway uses the gateways configured on the interfaces in the VRF of the next hop (on the interface itself or on its first neighbor with a gateway); only when there are none it uses, for each address family of the node, the first router with a static address in that family on the first interface that has one. No unnumbered-neighbor warning is reported when there is a gateway.", "quantifier": "every topology, node, static route and list of interfaces", "why_tests_cant": "any number of interfaces, neighbors and address families, with and without cached gateways", "anchors": ["netsim/modules/routing.py: resolve_gateway_nexthop, create_gateway_last_resort, check_static_routes"]}
{"id": "C104", "title": "Static routes come from configured routes and have usable next hops; a dual-stack route can lose an address family", "statement": "When the static routes of a node are processed without an error, every route left on the node has a next hop for each of its address families, and its prefixes and VRF are those of a configured route. Every prefix of a configured route is on the node in the same VRF with a next hop in its family, provided the directly connected address next hops cover all or none of the families of the route. Without that condition it is false: a dual-stack route with one directly connected and one indirect next hop silently loses the second family.", "quantifier": "every topology, node, list of static routes and list of interfaces", "why_tests_cant": "combinations of address families and kinds of next hops", "anchors": ["netsim/modules/routing.py: check_static_routes, resolve_nexthop_intf, extract_af_info"]}
{"id": "C105", "title": "VRF checks, generated host routes and exceptions in static routes", "statement": "A VRF error is reported for a route with a prefix and a next hop exactly when its VRF or the VRF of its next hop is not defined on the node or not supported by the device, and such a route adds no routes. A generated host route is never reported and never left unresolved: it is replaced by routes through the gateways, or removed when one of its families has no gateway. Processing raises no exception when prefixes are texts, addresses can be parsed, no gateway is False and every address next hop covers the families of its route; three configurations outside these conditions raise exceptions: a dual-stack route with a single next-hop address, a route to a node without a numbered control-plane address, a neighbor with a disabled gateway.", "quantifier": "every topology, node, static route and list of interfaces", "why_tests_cant": "combinations of VRF settings, device features and missing addresses", "anchors": ["netsim/modules/routing.py: check_VRF_static_route, check_static_routes, resolve_nexthop_intf, get_static_route_id, resolve_gateway_nexthop"]}
{"id": "C106", "title": "One VLAN interface per bridged VLAN, in order of first use", "statement": "On a device with VLAN interfaces, the VLAN interfaces added to a node are exactly one per VLAN with at least one bridged or IRB port on the node, in the order of the first such ports.", "quantifier": "every node, interface list, set of node and global VLANs", "why_tests_cant": "any number of ports and VLANs in any order", "anchors": ["netsim/modules/vlan.py: create_svi_interfaces, create_node_vlan"]}
{"id": "C107", "title": "The data of a VLAN interface come from the VLAN and from its first port", "statement": "The name, description, MTU, IP addresses, gateway and all other attributes of a VLAN interface are given by closed formulas in the VLAN data and the first port of the VLAN on the node. Addresses of further ports of the same VLAN are lost, and a VLAN interface in bridge mode has an IP address when the node VLAN data contain one.", "quantifier": "every node, interface list, set of node and global VLANs", "why_tests_cant": "all combinations of VLAN, node and interface attributes", "anchors": ["netsim/modules/vlan.py: create_svi_interfaces, fix_vlan_mode_attribute"]}
{"id": "C108", "title": "Indexes of VLAN interfaces", "statement": "With at most 1000 VLAN interfaces and no link type in VLAN data, the VLAN interfaces of a node have the consecutive indexes from 40000 and no error is reported. In general, the index of a VLAN interface is 40000 plus the number of earlier VLAN interfaces of type svi; a VLAN with a link type makes two VLAN interfaces get the same index.", "quantifier": "every node, interface list and set of VLANs with these conditions", "why_tests_cant": "up to a thousand VLAN interfaces", "anchors": ["netsim/modules/vlan.py: create_svi_interfaces", "netsim/augment/links.py: get_unique_ifindex"]}
{"id": "C109", "title": "Bridge groups of node VLANs", "statement": "On a device with VLAN interfaces, the VLANs used on the ports of a node get the bridge groups 1, 2, 3 and so on, each VLAN one and no two the same; VLANs not used on ports are unchanged; a global VLAN used on a node becomes a node VLAN with the same id.", "quantifier": "every node, interface list, set of node and global VLANs without bridge groups", "why_tests_cant": "any number of ports and VLANs in any order", "anchors": ["netsim/modules/vlan.py: create_node_vlan, populate_node_vlan, create_svi_interfaces"]}
{"id": "C110", "title": "Ports of VLANs", "statement": "On a device with VLAN interfaces, a bridged port keeps its physical attributes only, gets the VLAN id, and its neighbors are set aside; a routed port keeps all its attributes, gets the attributes of the VLAN it does not have, and is no longer in the VLAN; other interfaces are unchanged.", "quantifier": "every node and interface list whose attributes are dictionaries", "why_tests_cant": "any number of ports in any combination of modes", "anchors": ["netsim/modules/vlan.py: create_svi_interfaces"]}
{"id": "C111", "title": "Errors while creating VLAN interfaces", "statement": "On a device with VLAN interfaces, the transformation is aborted exactly when a port in a VLAN has no forwarding mode or its VLAN is defined neither on the node nor globally. On a device without VLAN interfaces no VLAN interface is added; an error is reported exactly when there is a bridged port, for the first such port, and that port and the following interfaces are unchanged.", "quantifier": "every node, interface list, set of node and global VLANs", "why_tests_cant": "position of the bad port in a list of any length", "anchors": ["netsim/modules/vlan.py: create_svi_interfaces, create_node_vlan, get_vlan_interface_mode"]}
{"id": "C112", "title": "Neighbor lists of VLANs", "statement": "Processing a node on a device with VLAN interfaces adds to the neighbor list of a VLAN exactly the neighbors of its bridged ports in that VLAN and the node itself; the last entry for any other node is unchanged; the last entry for the node has the name and the addresses of its VLAN interface. No node is listed twice when no port has a neighbor twice and none has the node itself as a neighbor; a node listed twice keeps an entry with stale data.", "quantifier": "every node, interface list and initial neighbor list", "why_tests_cant": "any number of nodes, ports and VLANs in any order", "anchors": ["netsim/modules/vlan.py: update_vlan_neighbor_list, get_vlan_data, create_svi_interfaces"]}
{"id": "C113", "title": "Neighbors and stub role of VLAN interfaces", "statement": "After the transformation of all nodes, two nodes with VLAN interfaces in the same global VLAN are neighbors of each other, with the name and the addresses of the VLAN interface, and no VLAN interface has its own node as a neighbor, provided that VLAN nodes are devices with VLAN interfaces without routed subinterfaces in that VLAN and no VLAN has the type vlan_member. A node with both a VLAN interface and a routed subinterface in the VLAN is listed with the subinterface. An interface in a global VLAN without a role becomes a stub exactly when all entries of the VLAN neighbor list but one are hosts. A list of renamed subinterfaces changes, in the order of the list, exactly the matching interface names in the neighbor lists of the nodes on the other end.", "quantifier": "every list of nodes with distinct names and interfaces", "why_tests_cant": "any number of nodes in a VLAN, processed in any order", "anchors": ["netsim/modules/vlan.py: set_svi_neighbor_list, update_vlan_neighbor_list, rename_neighbor_interface"]}
{"id": "C114", "title": "VLAN ids of trunks", "statement": "The VLAN ids of a trunk are the ids of its VLANs on the node, in the same order; nothing else on the interface changes; an exception is raised only when a trunk has a VLAN that is not defined on the node.", "quantifier": "every interface list and set of node VLANs", "why_tests_cant": "any number of trunks and VLANs", "anchors": ["netsim/modules/vlan.py: map_trunk_vlans"]}
{"id": "C115", "title": "VLAN subinterfaces", "statement": "On a router or layer-3 switch whose VLAN subinterfaces all have a parent interface, every subinterface gets the next number of its parent interface (consecutive from the first subinterface number of the device), the index and name of its parent, a name computed from these, and its VLAN id is removed from the trunk of the parent; all other VLAN ids stay on the trunk. On devices without subinterfaces every one is reported and nothing is changed.", "quantifier": "every interface list, any parents and any number of subinterfaces per parent, also on links connected twice to the node", "why_tests_cant": "unbounded number of subinterfaces, interleaved between parents", "anchors": ["netsim/modules/vlan.py: rename_vlan_subinterfaces, find_parent_interface, remove_vlan_from_trunk"]}
{"id": "C116", "title": "Checks of mixed trunks and routed native VLANs", "statement": "A mixed trunk error is reported once for each parent interface that has a routed subinterface and VLANs left on its trunk, on devices that do not support mixed trunks, and for no other interface. A routed native VLAN is removed from the trunk of its interface and reported exactly on devices not supporting it. A mixed native trunk error is reported on switches exactly for the physical interfaces with an address and VLANs on the trunk.", "quantifier": "every node and interface list", "why_tests_cant": "any number of interfaces in any combination", "anchors": ["netsim/modules/vlan.py: check_mixed_trunks, cleanup_routed_native_vlan, check_mixed_native_trunk"]}
{"id": "C117", "title": "Shortcut forms of links", "statement": "A link given as a dictionary with interfaces, a dictionary of nodes, a list of nodes or a string of node names separated by dashes is accepted without an error exactly when every listed node is acceptable for that form. The result then has one interface per listed node, in the same order and with the interface data, the name of the link, and in the dictionary forms all other attributes. In the list of interfaces the rejected elements are removed and one error is reported for each. In the string form a name that starts with the name of a node is accepted, so an unknown node can pass without an error, and an unknown node in the dictionary form becomes a link attribute.", "quantifier": "every link value with distinct dictionary keys, link name and list of nodes", "why_tests_cant": "four forms of unbounded size, and node names that are prefixes of other names", "anchors": ["netsim/augment/links.py: adjust_link_object, adjust_interface_list"]}
{"id": "C118", "title": "Link lists, link groups and link indices", "statement": "When no error is reported, the resulting links are the enabled links of the (nested) link lists in order, without link groups, followed by the members of the link groups in order, each with the attributes of its group that the member does not have; the link indices are consecutive from the starting value. The link indices are also consecutive when errors are reported. A disabled member of a link group stays in the list of links, a link group within a link group disappears without an error, and an exception is raised only after an error for an element that is not a link was reported.", "quantifier": "every list, dictionary or nested dictionary of links, any groups and members", "why_tests_cant": "unbounded nesting of link dictionaries, any number of groups and members", "anchors": ["netsim/augment/links.py: adjust_link_list, expand_groups, links_init, get_next_linkindex"]}
{"id": "C119", "title": "Result of component expansion", "statement": "When no error is reported, the nodes of the topology are its nodes without include requests followed by the nodes of the instances, depth first in the order of the requests; the links of the topology are its links followed by copies of the links of the instances, with prefixed node and link names and consecutive link indices; the groups are followed by one group per instance, the group of a nested instance before that of its parent. All node names and all group names are distinct.", "quantifier": "every set of components, topology with nodes, links and groups, any depth of nesting", "why_tests_cant": "unbounded depth and number of nested components", "anchors": ["netsim/augment/components.py: expand_components, expand_include, include_nodes, include_links, create_included_group"]}
{"id": "C120", "title": "Included nodes", "statement": "When no error is reported, a node is in the topology exactly when it was there and is not an include request, or it is found on a path of nested components; its name then consists of the name of the request and the names on the path joined with underscores, and its data is that of the component. Each such name is an identifier of at most 16 characters. The name attribute of an included node is its name within the component and never equals its name in the topology.", "quantifier": "every set of components and topology, paths of any length", "why_tests_cant": "any number of instances and levels of nesting", "anchors": ["netsim/augment/components.py: include_nodes, expand_components, validate_components", "netsim/augment/nodes.py: create_node_dict"]}
{"id": "C121", "title": "Groups of included components", "statement": "When no error is reported, the group of an include request has the attributes of the request other than include and interfaces, the attributes of the component that are not set in the request, and otherwise the list of members: the nodes of the component and the groups of its nested components. Every node included by the request at any depth is a direct or an indirect member of the group, provided that no request and no component has the members attribute. A dictionary attribute of a request replaces the same attribute of the component and is not merged with it.", "quantifier": "every set of components, topology and include request", "why_tests_cant": "any depth of nesting and any attributes", "anchors": ["netsim/augment/components.py: create_included_group, expand_include"]}
{"id": "C122", "title": "Nested and recursive components", "statement": "Component expansion terminates whenever no requested component is nested in itself, directly or through other components, and an expansion without an error never meets a component nested in itself. A component that includes itself passes the validation of components, and its expansion does not terminate when it has no other nodes.", "quantifier": "every set of components and topology", "why_tests_cant": "termination over unbounded nesting", "anchors": ["netsim/augment/components.py: expand_include, include_nodes, expand_components, validate_include"]}
{"id": "C123", "title": "Node dictionaries", "statement": "A dictionary of nodes is accepted exactly when the data of every node is a dictionary or missing; the nodes stay in the same order, and each gets its key as the name, an interface list when it has none, and all its other attributes. A list of nodes is accepted exactly when each element is a node name or a dictionary with a (string) name; the nodes are in the order of first appearance and the data of the last element with the same name is used, without an error. A string is accepted as well, and creates one node for each of its characters.", "quantifier": "every dictionary and list of nodes", "why_tests_cant": "lists of any length with repeated names", "anchors": ["netsim/augment/nodes.py: create_node_dict"]}
{"id": "C124", "title": "Valid components are expanded without errors", "statement": "Component expansion terminates and reports no error whenever all included components exist, no nesting is infinite, the names of all nodes and of all (nested) include requests are distinct, those created by the expansion are identifiers of at most 16 characters, there are at most 250 nodes and pending requests, and there is no group with the name of an include group. The component definitions are accepted exactly when every component has an identifier of at most 16 characters as its name, is a dictionary (or empty), and its nodes and links are valid; otherwise nothing is expanded. A completed expansion never leaves more than 250 nodes in a topology that had at most that many (or more than it had before).", "quantifier": "every set of components and topology, any depth of nesting", "why_tests_cant": "unbounded depth and number of nested components", "anchors": ["netsim/augment/components.py: expand_components, include_nodes, expand_include, create_included_group, validate_include"]}
{"id": "C125", "title": "MPLS settings and their boolean shortcuts", "statement": "Before the transformation, a True value of mpls.ldp, mpls.bgp, mpls.vpn, mpls.6pe (or of an address family within mpls.bgp and mpls.vpn) is replaced with the default value, a False value removes the setting, and every other value and setting is unchanged. An error is reported exactly when LDP stays enabled on a node without OSPF, IS-IS and EIGRP, and when BGP-LU or MPLS/VPN stay enabled on a node without BGP.", "quantifier": "every list of modules and every dictionary of MPLS settings", "why_tests_cant": "arbitrary nested settings", "anchors": ["netsim/modules/mpls.py: MPLS.node_pre_transform", "netsim/data/__init__.py: bool_to_defaults"]}
{"id": "C126", "title": "LDP interfaces", "statement": "On a node with IPv4, LDP is enabled exactly on the interfaces with an IPv4 address that are not in a VRF and do not have the external role; it is passive exactly on interfaces with the passive role, on stub links, and on interfaces with the stub role and no neighbor running the protocol; the node keeps LDP data exactly when there is such an interface. The interface parameter mpls.ldp does not do what it should (refuted with a counterexample): False does not disable LDP, and True on an IPv4 interface without the external role (in a VRF: on a device that supports LDP in VRFs) always ends in an exception, so LDP never runs in a VRF.", "quantifier": "every node, interface list and device", "why_tests_cant": "arbitrary combinations of roles, VRFs and flags", "anchors": ["netsim/modules/mpls.py: node_adjust_ldp", "netsim/modules/_routing.py: passive, is_true_stub, external, remove_unused_igp"]}
{"id": "C127", "title": "BGP labeled unicast sessions", "statement": "With a usable mpls.bgp parameter (a non-empty list, or a dictionary with non-empty values for the address families), labels are enabled exactly on the neighbors with an address of the address family and a session type listed for the address family, nothing else changes, and errors are reported exactly when a listed session type is not ibgp or ebgp. With any other parameter no label is enabled - refuted consequence: an empty list for IPv6 disables the IPv4 labels without an error.", "quantifier": "every node and mpls.bgp value", "why_tests_cant": "arbitrary neighbors, session types and parameter values", "anchors": ["netsim/modules/mpls.py: node_adjust_bgplu, validate_mpls_bgp_parameter"]}
{"id": "C128", "title": "MPLS/VPN address families", "statement": "With a usable mpls.vpn parameter, the VPNv4 (VPNv6) address family is enabled, with the IPv4 address of the neighbor, exactly on the neighbors with an IPv4 session when the address family is configured and the node is a route reflector, has a VRF with the address family, or lists EBGP sessions. The session type of the neighbor plays no role - refuted: VPN routes are exchanged over an EBGP session when only IBGP sessions are listed.", "quantifier": "every node, set of VRFs, neighbors and mpls.vpn value", "why_tests_cant": "arbitrary neighbors, VRFs and parameter values", "anchors": ["netsim/modules/mpls.py: node_adjust_mplsvpn, prune_mplsvpn_af, validate_mpls_bgp_parameter"]}
{"id": "C129", "title": "6PE sessions", "statement": "On a node with IPv4 BGP and without IPv6 labeled unicast, 6PE is enabled exactly on the IPv4 sessions of the listed types, and the IPv6 session is removed exactly when the neighbor lists the session type too; otherwise no session changes. When both neighbors meet these conditions the IPv6 session is removed on both ends or on none of them. Refuted without the conditions: one end can keep the IPv6 session the other one removed, without an error; an unknown 6PE session type is accepted.", "quantifier": "every pair of nodes, neighbors and MPLS settings", "why_tests_cant": "agreement of two nodes for all combinations of settings", "anchors": ["netsim/modules/mpls.py: node_adjust_6pe, validate_mpls_bgp_parameter"]}
{"id": "C130", "title": "MPLS features of devices", "statement": "The feature check reports exactly the configured MPLS features, and address families of features, that the device does not support. Refuted: the LDP support of the device is never checked on a node with IPv4, and a node that uses only 6PE is rejected on a device without labeled unicast.", "quantifier": "every device, node and MPLS settings", "why_tests_cant": "all combinations of features and settings", "anchors": ["netsim/modules/mpls.py: check_node_features, MPLS.node_post_transform, node_adjust_6pe, node_adjust_ldp"]}
{"id": "C131", "title": "VLAN attributes of links and interfaces", "statement": "Checking the VLAN attributes of a link and its interfaces reports exactly the errors of the first invalid object (the link, then the interfaces in order): attributes that are not a dictionary, an unknown attribute, an attribute of a wrong type, or a VLAN that is not defined in the topology or on the node. When all objects are valid there are no errors, every trunk list becomes a dictionary, null trunk entries become empty dictionaries, and nothing else changes. The collected access, native and trunk VLANs of the link are then exactly the VLANs used on the link or on one of its interfaces; the collected global VLANs are exactly the ones also defined in the topology, and the collected nodes are exactly the ones that use a VLAN not defined in the topology.", "quantifier": "every topology, link, list of interfaces and VLAN attributes", "why_tests_cant": "arbitrary link and interface attributes", "anchors": ["netsim/modules/vlan.py: check_link_vlan_attributes, VLAN.link_pre_transform"]}
{"id": "C132", "title": "VLAN rules on a link", "statement": "A link with valid VLAN attributes is rejected exactly when it mixes access and trunk VLANs, has a native VLAN and no trunk, or uses two global access VLANs. The reported errors are exactly these and, on the other links with a native VLAN: no native VLAN is in a trunk, an interface with a native VLAN and no trunk, an interface whose native VLAN is not in its trunk, and an interface that has the first native VLAN in its trunk without using it as native VLAN. IPv4 and IPv6 are turned off exactly on the interfaces with a trunk that does not include the first native VLAN and no native VLAN. Refuted: rules the documentation lists as enforced (native VLANs match, trunk VLANs are global, access VLANs of several nodes match and are global) are not checked.", "quantifier": "every topology, link and list of interfaces (no VLAN has an empty name)", "why_tests_cant": "all combinations of access, native and trunk attributes", "anchors": ["netsim/modules/vlan.py: validate_link_vlan_attributes, check_link_vlan_attributes", "docs/module/vlan.md"]}
{"id": "C133", "title": "VLANs used by one node on a trunk", "statement": "On a trunk link the missing native VLAN is reported exactly when some interface has no VLAN attributes and no interface has a native VLAN; otherwise the errors are exactly the trunk VLANs of an interface that no other interface has in its trunk, apart from its native VLAN when some interface has no VLAN attributes. The processing is aborted exactly when the first error is not reported and an interface has VLAN attributes without a trunk.", "quantifier": "every list of interfaces", "why_tests_cant": "arbitrary number of interfaces and VLANs", "anchors": ["netsim/modules/vlan.py: validate_trunk_vlan_list"]}
{"id": "C134", "title": "Member links of VLAN trunks", "statement": "A trunk link gets one member link for every VLAN used in a trunk on the link, other than the first native VLAN, sorted by VLAN name and with consecutive link indices. Its interfaces belong, in order, to the nodes that have the VLAN in the trunk of the interface, or in the trunk of the link when the node uses VLANs; their forwarding mode is the first setting found on the interface, the node VLAN, the node, the global VLAN and the topology; bridge interfaces have no addresses. The prefix is the prefix of the global VLAN or the first one in a node VLAN of a non-bridge member; when all members route the link is in route mode and gets no VLAN prefix. With plain trunk data the links are always created. Refuted: attributes of the global VLAN replace the attributes of the trunk, including the vlan_member link type.", "quantifier": "every topology, link, trunk and list of interfaces (no VLAN has an empty name)", "why_tests_cant": "arbitrary number of VLANs, interfaces and attributes", "anchors": ["netsim/modules/vlan.py: create_vlan_links, create_vlan_link_data, create_vlan_member_interface, compute_interface_vlan_mode, routed_access_vlan, fix_vlan_mode_attribute, VLAN.link_pre_transform"]}
{"id": "C135", "title": "Access and native VLANs of links", "statement": "On a link with valid VLAN attributes the processing of access and native VLANs never fails. The forwarding mode of every interface with VLAN attributes is the first setting found on the interface, the node VLAN, the node, the global VLAN and the topology; interfaces of VLAN nodes in bridge mode lose their addresses. When every interface with a mode routes, the link and its VLAN interfaces are in route mode and the VLAN prefix is not used; otherwise the link gets the VLAN name, the prefix of the VLAN and the link type. All other attributes of the global VLAN are added to the link, which keeps its own values. Without access and native VLANs only an empty prefix is added to trunks without a role, prefix or pool. Refuted: with two local access VLANs the prefix depends on the order of elements in a set.", "quantifier": "every topology, link and list of interfaces", "why_tests_cant": "arbitrary interfaces, modes and set orders", "anchors": ["netsim/modules/vlan.py: VLAN.link_pre_transform, get_link_access_vlan, set_access_vlan_interface_mode, set_link_vlan_prefix, copy_vlan_attributes, routed_access_vlan, get_vlan_interface_mode"]}
{"id": "C136", "title": "Links for VLANs without links", "statement": "A virtual link with a single interface is created exactly for every VLAN of a node that is in IRB mode on the node and is not the VLAN of a link the node is attached to, once for each of them and with consecutive link indices; the link has the attributes and the prefix of the global VLAN. Refuted: the prefix of a VLAN defined only on the node is not used.", "quantifier": "every topology and list of links", "why_tests_cant": "arbitrary number of nodes, VLANs and links", "anchors": ["netsim/modules/vlan.py: create_loopback_vlan_links, create_vlan_link_data, create_vlan_member_interface"]}
{"id": "C137", "title": "Accepted validation tests and supported devices", "statement": "A validation test is accepted exactly when it has at most one kind of action (device commands, configuration, plugin, SuzieQ), a wait attribute if it has no action, a list of nodes unless it uses SuzieQ or has a wait attribute, an expression if it has a show command, and a source of data if it has an expression. The computed list of devices of an accepted test with device commands is sorted and has exactly the devices with a command and, when the expressions are given by device, with an expression; an empty list is an error. A node with a listed device is tested with a device command and has an expression; when the commands are given by device, a node with any other device never passes the test and is not retried.", "quantifier": "every test entry, device and observed outcome", "why_tests_cant": "all combinations of attributes and devices", "anchors": ["netsim/augment/validate.py: validate_test_entry, calculate_device_support, process_validation", "netsim/cli/validate.py: find_test_action, execute_node_validation"]}
{"id": "C138", "title": "Outcome of an attempt to validate a node", "statement": "An attempt to run an accepted test on a node passes, fails, is undecided or has to be repeated. With device commands and an expression: no command for the device - undecided; failed show command - failure; failed other command after the deadline - failure; otherwise the value of the expression decides, a missing expression leaves the attempt undecided and a false one is a failure after the deadline and a retry before it. Every decided attempt and every skipped one increases exactly its counter. The outcomes of plugins, commands without an expression, SuzieQ without an expression and pure waits are described in the same way. Refuted: a failed command without an expression is not noticed before the deadline, and a failed SuzieQ command passes the test; a failed show command is not repeated.", "quantifier": "every accepted test, node and observation", "why_tests_cant": "all outcomes of commands, expressions and plugins", "anchors": ["netsim/cli/validate.py: execute_node_validation, execute_validation_expression, execute_validation_plugin, get_parsed_result, get_result_string, get_suzieq_result, increase_fail_count, increase_pass_count"]}
{"id": "C139", "title": "Retries of validation tests", "statement": "With distinct nodes, every node of a test is tried at least once, is not tried again after it is done, and every attempt that is repeated was made before the deadline; other nodes are not touched. The test fails exactly when some attempt fails, succeeds exactly when some attempt passes and none fails, and is undecided otherwise. The loop ends when the clock reaches the deadline, whatever the lab does; if the clock stays before the deadline and the expression is never true, it does not end.", "quantifier": "every test, list of nodes and sequence of observations", "why_tests_cant": "unbounded number of retries and arbitrary clock readings", "anchors": ["netsim/cli/validate.py: execute_validation_test, execute_node_validation"]}
{"id": "C140", "title": "Counters of validation tests", "statement": "The number of results is always the number of passed tests, failures and warnings. The counters never decrease, a test counts either failures or warnings according to its level, and a failed test increases the counter of its level. Tests with device commands and an expression count every attempt that is not repeated exactly once, as passed, failed or skipped.", "quantifier": "every test and sequence of observations", "why_tests_cant": "unbounded number of attempts", "anchors": ["netsim/cli/validate.py: increase_fail_count, increase_pass_count, execute_validation_test, execute_node_validation"]}
{"id": "C141", "title": "Exit code of netlab validate", "statement": "Exit code 0 means that all tests were executed and none of them failed. When no test evaluates an expression on SuzieQ results, the exit code is 0 exactly when no executed test failed, 1 exactly when a test failed that is not of the warning level or stops the validation, and 3 when only other warnings failed. A failed test with stop_on_error is the last one executed. Refuted: exit code 0 for tests that have not passed (skipped devices, tests without nodes, failed commands before the deadline, failed SuzieQ commands); a failed test of the warning level with stop_on_error returns the exit code of a failure.", "quantifier": "every list of tests and sequence of observations", "why_tests_cant": "arbitrary sequences of tests and outcomes", "anchors": ["netsim/cli/validate.py: run, execute_validation_test", "docs/netlab/validate.md: exit code table"]}
{"id": "C142", "title": "SuzieQ records", "statement": "When SuzieQ returns records and the test has an expression for the device, the test on a node passes exactly when any record (or all records, if required) passes. A passed test is counted once. Refuted: after the deadline every record that fails is also counted as a failed test, so a test that passes because some record passes can end with the exit code of a failure.", "quantifier": "every list of records and test", "why_tests_cant": "arbitrary number of records", "anchors": ["netsim/cli/validate.py: execute_suzieq_validation, execute_validation_expression"]}
{"id": "C143", "title": "Waiting times of validation tests", "statement": "A pure wait sleeps in steps of at most five seconds and ends not before the requested time after the start and less than a second after it (plus the time of the printouts); without a start time it sleeps exactly for the requested time. The largest initial delay of the devices is added to the first test with a non-zero wait attribute and to no other test; the wait time of a test is the maximum of its own value and the values of the devices. A failure in a test with nodes is final exactly when the wait time after the start of the test is over; when waiting is skipped every node is tried exactly once and nothing sleeps. Refuted: the retry time is not measured from the start of the lab or the previous test with a wait attribute.", "quantifier": "every wait time, start time, clock and list of tests", "why_tests_cant": "arbitrary times and lists", "anchors": ["netsim/cli/validate.py: wait_before_testing, extend_first_wait_time, extend_device_wait_time, execute_validation_test", "docs/topology/validate.md: wait"]}
{"id": "C144", "title": "Selection of validation tests", "statement": "Tests are selected by name exactly when all given names exist; every unknown name and every unknown node is reported and nothing is changed. Selection by node keeps exactly the tests with one of the given nodes, restricted to those nodes, and reports an error when there is none. The order of the tests does not depend on the arguments.", "quantifier": "every list of tests, names and nodes", "why_tests_cant": "arbitrary lists", "anchors": ["netsim/cli/validate.py: filter_by_tests, filter_by_nodes, run"]}
{"id": "C145", "title": "Links of cloned nodes", "statement": "Cloning a node removes exactly the links that involve the node (for a LAG: that have a member attached to it), keeps all other links in order and appends one copy per clone for every removed link, in order. In the copy number c of a plain link the clone replaces the node, every other interface index moves by c and everything else is unchanged; in a copy of a LAG the LAG index and the clone's ports move by c, the ports of the other nodes by 2c. The cloned node appears in no remaining link (unless a clone has its name), the number of links is known, and cloning both ends of a link gives every pair of clones exactly once. Refuted: a copied LAG keeps only the members attached to the cloned node, and the clone's own port in a copied LAG is not the original port.", "quantifier": "every list of links in any form, every non-empty list of clones", "why_tests_cant": "arbitrary number of links, link forms and clones", "anchors": ["netsim/extra/node.clone/plugin.py: clone_link, clone_lag, process_links"]}
{"id": "C146", "title": "Nodes and groups of cloned nodes", "statement": "When the clone names are distinct and new, cloning a node replaces it by its clones at the end of the node dictionary, in order, with the data of the original node apart from the name, the empty interface list, the identifier (moved by the clone number minus one) and the cloning attribute; all other nodes are unchanged. Existing data for the name of a clone overrides the cloned data leaf by leaf. A missing count, a parameter that is not a positive integer or a node with an include attribute is reported and changes nothing. Every group with the node gets the clones in its place and keeps the other members and attributes. The links of the topology, of all VLANs and of all VRFs are processed as in C145 and every error in a link is reported under the name of that link.", "quantifier": "every topology, node, count, start and step", "why_tests_cant": "arbitrary number of nodes, clones and groups", "anchors": ["netsim/extra/node.clone/plugin.py: clone_node, topology_expand, update_links"]}
{"id": "C147", "title": "Names of cloned nodes", "statement": "With the default name pattern, two clones have the same name exactly when the first thirteen characters of the node names and the clone numbers are the same, so the clones of one node have distinct names and numbers. Refuted: clones of different nodes with the same first thirteen characters are silently merged, and a node whose clone has its own name is lost.", "quantifier": "every pair of node names, every positive start and step", "why_tests_cant": "arbitrary names and numbers", "anchors": ["netsim/extra/node.clone/plugin.py: clone_node", "netsim/extra/node.clone/defaults.yml"]}
{"id": "C148", "title": "Nodes and links of a fabric", "statement": "When all leaf and spine names are distinct, the fabric has exactly the requested leafs and spines, in order; a node has its name, number and an empty interface list, and for every format string among the parameters of its layer the value computed for this node (an integer if it reads as one), and nothing else. Every leaf is connected to every spine with exactly one link, in order, with no other attributes than the link name, and no error is reported. The fabric links come before the links of the topology, and the node data of the topology overrides the fabric data leaf by leaf. Refuted: two layers with the same names are silently merged into fewer nodes.", "quantifier": "every number of leafs and spines, every parameter tree and format function", "why_tests_cant": "arbitrary numbers of nodes, arbitrary nesting of parameters", "anchors": ["netsim/extra/fabric/plugin.py: create_node, format_node_params, adjust_group_parameters, generate_fabric, topology_expand"]}
{"id": "C149", "title": "Groups and parameters of a fabric", "statement": "Every parameter of a layer other than its name template and group name goes to the node data when it is a string with an opening brace and to the group otherwise: never to both, never to none, at any depth. With different groups for the two layers, a fabric group has as members the nodes of the layer and the members given in the topology, without duplicates in alphabetical order, and as attributes those of the topology, which override the parameters of the layer leaf by leaf; all other groups are unchanged. With one group for both layers its parameters are those of the spines and the leafs. Refuted: with one group for both layers the leafs are lost from the group without an error.", "quantifier": "every parameter tree, every dictionary of groups", "why_tests_cant": "arbitrary nesting of parameters, arbitrary member lists", "anchors": ["netsim/extra/fabric/plugin.py: extract_params, add_group, adjust_group_parameters, generate_fabric, topology_expand"]}
{"id": "C150", "title": "Attributes of BGP sessions", "statement": "With the bgp.session plugin, when no error is reported, a session has a session attribute exactly when the attribute is applied to sessions of its kind (all attributes on EBGP sessions only unless bgp.session.apply says otherwise) and has a true value on the interface of the session or, failing that, on the node; the interface value wins, IBGP sessions use the node value only, and session attributes of the neighbor are removed. Everything else in the session is unchanged. An error is reported exactly when an attribute set in this way is not supported by the device or its provider. The plugin template is used, and the addresses of the neighbor are in the list of sessions to clear, without duplicates, exactly when an attribute is set. Refuted: turning an attribute off on an interface does not override the node attribute.", "quantifier": "every node, list of interfaces and sessions, set of attributes and device features", "why_tests_cant": "arbitrary lists of sessions and interfaces", "anchors": ["netsim/extra/bgp.session/plugin.py: get_attribute_list, mark_plugin_config, apply_neighbor_attributes, copy_local_attributes", "netsim/utils/routing.py: check_device_attribute_support, cleanup_neighbor_attributes, neighbors, intf_neighbors"]}
{"id": "C151", "title": "TCP-AO and BFD on BGP sessions", "statement": "The TCP-AO secrets of a node are exactly the passwords of the sessions with TCP-AO (and those already there), without duplicates; every session with TCP-AO and without a password is reported. BFD on a session is reported exactly when the node does not use the BFD module; a false BFD attribute is removed and nothing else changes. Hence, without errors, every session for which TCP-AO is requested has a password among the secrets of the node and BFD is requested on nodes with the BFD module only.", "quantifier": "every node and list of sessions", "why_tests_cant": "arbitrary lists of sessions", "anchors": ["netsim/extra/bgp.session/plugin.py: process_tcpao_password, process_tcpao_secrets, process_bfd_requests"]}
{"id": "C152", "title": "Sessions of BGP route servers", "statement": "After the plugin has processed the topology, a session of a node is gone exactly when both its ends are route servers for each other, or when it is an ordinary EBGP session on an interface on which the node is a client of a route server; all other sessions stay, in order, with their attributes, and a session is marked as a session with a route server exactly when the other end is a route server for this node. The other end of a session with a route server gets the client attribute, the plugin template and the addresses to clear exactly when it has such a session and is not a route server itself, with an error exactly when its device does not support it. The result does not depend on the order of the nodes when the neighbors' route server attribute was not copied into the sessions beforehand. Refuted: with bgp.rs on an interface, the session between a route server and its client is lost when the route server is the first of the two nodes; and a router in the AS of the route server keeps its session with a client that has dropped it.", "quantifier": "every topology in which session data does not hold route server attributes of the neighbors", "why_tests_cant": "arbitrary number and order of nodes and sessions", "anchors": ["netsim/extra/bgp.session/plugin.py: zap_bgp_neighbor, get_intf_linkindex, set_rs_client, process_rs_requests, cleanup_rs_mesh, cleanup_bgp_neighbors, post_transform", "netsim/modules/bgp.py: build_ebgp_sessions"]}
{"id": "C153", "title": "Sources of defaults and their precedence", "statement": "The default files are the list in defaults.sources.list when it is given, otherwise the extra sources, then the user defaults and then the system defaults; the files that exist are recorded in order as input files. Every value in the resulting defaults comes from the topology or from one of the files and no earlier source has a value in the same place; a value that no earlier source contradicts is in the defaults, and values in the topology are never replaced. An environment variable replaces whatever the topology and the files say, everything else stays; it is not used without user defaults and fails exactly when a value that is not a dictionary is in the way. Refuted: an empty list or a false value does not disable the default sources; a value that replaces a dictionary hides the values of later sources in one case and not in another.", "quantifier": "every tree of defaults, list of sources, set of files and environment", "why_tests_cant": "arbitrary number of files, arbitrary nesting", "anchors": ["netsim/utils/read.py: include_defaults, build_defaults_list, include_environment_defaults, load, USER_DEFAULTS, SYSTEM_DEFAULTS", "docs/defaults.md"]}
{"id": "C154", "title": "Files included into YAML files", "statement": "Reading a file with includes succeeds exactly when every item to include, wherever it is, matches some files and all of them can be read. Then no include request is left, at any depth and in included files as well. The contents of an included file, without its _top part, are found under the name of the file unless a later file has the same name or changes it in its _top part; values in _top are merged leaf by leaf into the dictionary with the included values winning over dictionaries, a value that is not a dictionary is kept unless a file has the name of its key. Refuted: an included file replaces a dictionary of the same name, its values are lost without an error.", "quantifier": "every value tree, every file system and nesting of included files", "why_tests_cant": "arbitrary nesting of data and of included files", "anchors": ["netsim/utils/read.py: include_yaml, read_yaml"]}
{"id": "C155", "title": "Command line settings and the provider", "statement": "A value on the command line is read as an integer when possible, then as a boolean and otherwise as a string. A setting replaces the value in its place and nothing else, and later settings replace earlier ones; a setting is refused exactly when it does not have exactly one equals sign or when a value that is not a dictionary is in the way. The provider argument sets the provider and turns on its options; plugins follow those in the topology; the device argument replaces the default device. The provider is taken from the command line, else from the topology, else from the environment, else from the defaults; a missing provider, a provider that is not a string and an unknown provider are reported exactly in these cases; an accepted topology has the same provider in both places, the addressing of the provider replaces the default one leaf by leaf, and nothing else changes. Refuted: a value with an equals sign cannot be set.", "quantifier": "every topology, list of settings, provider argument and environment", "why_tests_cant": "arbitrary lists of settings, arbitrary nesting of keys", "anchors": ["netsim/utils/read.py: transform_cli_value, add_cli_args", "netsim/augment/topology.py: adjust_global_parameters"]}
{"id": "C156", "title": "Loading and ordering of plugins", "statement": "A plugin that is in no plugin directory is reported and nothing is executed. Otherwise the plugins are those of the topology and the default ones, each from the first directory that has it, sorted so that every plugin follows all plugins it requires or wants to be executed after; loading fails with a loop exactly when plugins have to follow each other. Important defaults of a plugin replace everything else, its other defaults are used only where nothing else is known. A redirected plugin is replaced by the one it is redirected to. A requirement is reported exactly when it is neither among the plugins nor among the modules. Refuted: a plugin that is in the topology and in the defaults is loaded and executed twice.", "quantifier": "every list of plugins, set of directories and dependencies between plugins", "why_tests_cant": "arbitrary number of plugins, arbitrary dependency graph", "anchors": ["netsim/augment/plugin.py: merge_plugin_defaults, load_plugin_from_path, sort_plugins, init, plugin_requires_check", "docs/dev/plugins.md"]}
{"id": "C157", "title": "Copies of attribute definitions", "statement": "An empty definition of a node attribute takes the global definition unless it is excluded; an empty definition of an interface attribute takes the link definition or, failing that and only when asked for, the resulting node definition; all other definitions and namespaces are unchanged. A definition with a request to copy takes the definition in the other namespace when that is not a request itself; a request to merge keeps its own values, takes the others leaf by leaf and loses the request. Definitions without requests do not change. A source namespace that does not exist or is not a dictionary is reported, nothing else is reported, and the request stays; a source namespace without the attribute gives an empty definition. Refuted: a request that leads to another request is resolved only when the namespaces are in the right order.", "quantifier": "every tree of attribute definitions", "why_tests_cant": "arbitrary number of attributes and namespaces, arbitrary nesting", "anchors": ["netsim/augment/config.py: copy_datatypes, adjust_attributes, copy_merge_attributes"]}
{"id": "C158", "title": "Adjusted search paths", "statement": "At every place of the tree of search paths the elements to prepend come first, then the existing elements, then the elements to append, and the requests are removed; a list for an unknown path is used as it is, values that are not lists do not change. The values of the tree after one adjustment are exactly these. Refuted: a single directory to prepend that is not in a list is dropped without an error.", "quantifier": "every tree of search paths and adjustments", "why_tests_cant": "arbitrary nesting of paths, arbitrary lists", "anchors": ["netsim/augment/config.py: adjust_paths, adjust_path_list"]}
{"id": "C159", "title": "STP port types", "statement": "On a node with STP enabled whose device supports port types, every interface without a port type that has no address and is not virtual gets: the stub port type of the topology (unless none) when it is connected to hosts only, otherwise the port type of its access VLAN, otherwise the port type of the node, otherwise none. Interfaces with a port type, with an address, and virtual interfaces do not change, and no other attribute of any interface changes. With STP disabled nothing changes. The transformation ends with an exception exactly when a port that is not a stub port has an access VLAN unknown to the node.", "quantifier": "all nodes, interfaces, VLANs, device features and roles", "why_tests_cant": "any mixture of interfaces, neighbors and settings", "anchors": ["netsim/modules/stp.py: supports_stp, configure_stub_port_type, STP.node_post_transform"]}
{"id": "C160", "title": "STP errors", "statement": "On a node with STP enabled an error is reported exactly for: a topology protocol the device does not support, a node priority that is not a multiple of 4096, STP attributes on an interface with an address, a per-port enable or a port type the device does not support, and a VLAN with a non-zero priority when the topology protocol is not pvrst or the device does not support pvrst. Refuted: the STP protocol set on a node is not checked, and a node that uses pvrst gets errors for per-VLAN priorities when the topology protocol differs.", "quantifier": "all nodes, interfaces, VLANs and device features", "why_tests_cant": "any mixture of settings and features", "anchors": ["netsim/modules/stp.py: STP.node_post_transform", "netsim/modules/stp.yml"]}
{"id": "C161", "title": "Bond interfaces", "statement": "On a node whose device supports bonding, exactly one bond interface is added for every bonding.ifindex used on a physical interface of a link with two nodes, in the order of first use; bond interface number p has interface index 50000+p and a name made from its bonding.ifindex. Its members are all such interfaces in order, its primary is the last member marked as primary, and its mode (or the topology mode), its neighbor nodes and its addresses, VLANs and gateway are those of the first member. Members lose addresses, VLANs and gateway and get no prefix, everything else stays. Interfaces that cannot be members and interfaces of devices without bonding are reported and do not change. The node gets the extra configuration exactly when there is a member.", "quantifier": "all nodes, interfaces, indexes and modes", "why_tests_cant": "any number of bonds and members, any order of interfaces", "anchors": ["netsim/extra/bonding/plugin.py: add_bond_interfaces, post_link_transform, update_neighbors"]}
{"id": "C162", "title": "Names of bond interfaces on links and neighbors", "statement": "After the interfaces became members of bonds, the name by which node m knows any interface of node x is made from the interface index of the last member of any bond of x on any link shared with m, and stays what it was without such a member; the name on the link is made from the interface index of the last member of x on that link. Refuted: that these are the names of bond interfaces, and that interfaces on other links between the two nodes keep their names.", "quantifier": "all topologies and all sequences of members", "why_tests_cant": "any number of nodes, links and members", "anchors": ["netsim/extra/bonding/plugin.py: update_neighbors, post_link_transform"]}
{"id": "C163", "title": "Multihop EBGP sessions become links", "statement": "Every multihop session becomes a tunnel link marked as a BGP session whose link index follows the last existing link. Attributes of a session or of its interfaces that are not BGP, VRF or internal attributes become BGP attributes (replacing BGP attributes with the same name) and nothing else remains on the link. An interface on a node with a loopback gets exactly the addresses of the loopback, the multihop value 255, its VRF as a BGP attribute, and a name made from the link index; an interface on a node without a loopback is reported and gets none of these. Refuted: sessions have different link indexes, two interfaces of a node have different names, and a multihop value set on an interface is used.", "quantifier": "all session lists, attributes, nodes and links", "why_tests_cant": "any number of sessions and any attributes", "anchors": ["netsim/extra/ebgp.multihop/plugin.py: pre_link_transform", "netsim/augment/links.py: get_next_linkindex"]}
{"id": "C164", "title": "Address families of multihop neighbors", "statement": "On a multihop neighbor every address family known to a transport the neighbor has is active if and only if it is requested for that transport; IPv6 transport decides when both transports know the address family. Other address families, transport addresses and attributes do not change, and neither do other neighbors. Refuted: address families requested for IPv4 transport are active on a neighbor with both transports.", "quantifier": "all neighbors, requested and known address families", "why_tests_cant": "any combination of transports and address families", "anchors": ["netsim/extra/ebgp.multihop/plugin.py: augment_af_activation"]}
{"id": "C165", "title": "Loopbacks of multihop neighbors", "statement": "A multihop EBGP neighbor in a VRF gets exactly the addresses of the first loopback of the remote node in that VRF, a neighbor that is not in a VRF keeps its addresses; the session source is the first loopback of the local VRF, or the loopback of the node outside VRFs. A device without VRF support and a local VRF without a loopback are reported, exactly then. Neighbors without a loopback in the remote VRF and other neighbors do not change.", "quantifier": "all nodes, neighbors, interfaces and features", "why_tests_cant": "any number of interfaces and VRFs", "anchors": ["netsim/extra/ebgp.multihop/plugin.py: fix_vrf_loopbacks", "netsim/modules/vrf.py: get_vrf_loopback"]}
{"id": "C166", "title": "Removal of interfaces of multihop sessions", "statement": "Interfaces made for multihop sessions are removed from the interfaces of the node and from the OSPF interfaces of all VRFs; other interfaces stay in order and other routing protocols do not change. Missing support for multihop sessions, or for requested address families, is reported exactly for nodes where something was removed. Refuted: such interfaces do not stay in the VRF interfaces of any routing protocol.", "quantifier": "all nodes, VRFs and interfaces", "why_tests_cant": "any number of interfaces, VRFs and protocols", "anchors": ["netsim/extra/ebgp.multihop/plugin.py: remove_fake_interfaces, cleanup_interfaces, check_multihop_support, check_af_activation_support"]}
{"id": "C167", "title": "BGP policy attributes of EBGP neighbors", "statement": "An EBGP neighbor gets a policy attribute if and only if the interface has a non-empty value for it and the device supports it; bandwidth that is not a dictionary means inbound bandwidth, and local preference comes from the node when the interface has none and the device has no default local preference. Attributes left over from the transformation are removed and everything else stays. The policy of a neighbor in a direction is the named policy of the interface if it is valid, otherwise the route map made for that neighbor if any of its attributes goes in that direction. Refuted: attributes with value zero are used.", "quantifier": "all neighbors, interfaces, attribute lists, device features and nodes", "why_tests_cant": "any combination of attributes, directions and device features", "anchors": ["netsim/extra/bgp.policy/plugin.py: post_transform, apply_policy_attributes, append_policy_attribute, fix_bgp_bandwidth, create_routing_policy, apply_bgp_routing_policy"]}
{"id": "C168", "title": "Route maps made for EBGP neighbors", "statement": "Route maps made for different neighbors or directions have different names. After all neighbors of a node were processed, the route maps of the node are the new ones (one entry, permit, with exactly the attributes of the neighbor that go in that direction) and the previous ones with other names. The node gets the routing module exactly when it had it or a route map was made, the extra configuration exactly when an attribute or a named policy was used, and the sessions to clear are those of such neighbors. Refuted: bandwidth sent to neighbors always enables extended communities.", "quantifier": "all nodes and lists of neighbors", "why_tests_cant": "any number of neighbors and route maps", "anchors": ["netsim/extra/bgp.policy/plugin.py: post_transform, create_routing_policy, bgp_policy_name, apply_config"]}
{"id": "C169", "title": "Errors in BGP policy attributes", "statement": "An error is reported if and only if an attribute is not supported by the device or its provider, a value does not fit the restrictions of the device, a named policy is used on a node that does not have the routing module when the neighbor is processed, or a named policy and attributes are used in the same direction. Refuted: errors do not depend on the order of interfaces.", "quantifier": "all nodes, neighbors, attributes and device features", "why_tests_cant": "any number of neighbors and any attribute values", "anchors": ["netsim/extra/bgp.policy/plugin.py: check_attribute_direction, create_routing_policy, apply_bgp_routing_policy", "netsim/utils/routing.py: check_device_attribute_support"]}
{"id": "C170", "title": "IBGP sessions within BGP domains", "statement": "BGP neighbors of a node stay in order except for IBGP neighbors in another domain, which are removed; nothing else changes and both ends of an IBGP session agree. An error is reported exactly once for every domain and AS number where a BGP node lost an IBGP session with a route reflector and no BGP node of that domain and AS number is a route reflector, and never for others. Refuted: a domain can have any name (a colon in the name of such a domain ends netlab with an exception, and only that does).", "quantifier": "all topologies with unique node names, nonnegative AS numbers and IBGP neighbors that are nodes", "why_tests_cant": "any number of nodes, domains and neighbors", "anchors": ["netsim/extra/bgp.domain/plugin.py: post_transform"]}
{"id": "C171", "title": "Loopback links for originated prefixes", "statement": "There is exactly one new loopback link for every prefix originated by a BGP node, in the order of nodes and of their lists, with the name, prefix and addresses of that entry and with consecutive indexes after the existing links. The list of prefixes is removed from nodes that got links; other nodes do not change. Increasing link indexes stay increasing.", "quantifier": "all lists of nodes, prefixes and existing links", "why_tests_cant": "any number of nodes, prefixes and links", "anchors": ["netsim/extra/bgp.originate/plugin.py: post_node_transform"]}
{"id": "C172", "title": "Shared VTEP loopbacks of MLAG peers", "statement": "A node gets a loopback with the address of an MLAG peer group if and only if it belongs to the group, uses VXLAN and did not disable the plugin; it gets one for every time it appears in a peer group. Loopbacks with the same address are on nodes of one peer group, and all loopbacks of a peer group share one address.", "quantifier": "all lists of links and nodes; allocated addresses are different", "why_tests_cant": "any number of links and nodes", "anchors": ["netsim/extra/mlag.vtep/plugin.py: pre_link_transform"]}
{"id": "C173", "title": "Missing custom configuration templates", "statement": "A template is removed from a node if and only if it and all templates before it in the list of the node are missing; other templates stay in order. Warnings list exactly the nodes with such templates, grouped by template and device, without duplicates. Refuted: every missing template is noticed.", "quantifier": "all lists of nodes and templates, all sets of existing files", "why_tests_cant": "any number of nodes, devices and templates", "anchors": ["netsim/extra/check.config/plugin.py: cleanup"]}
{"id": "C174", "title": "Proxy ARP on interfaces of VRFs", "statement": "An interface gets proxy ARP if and only if it is a LAN, point-to-point or VLAN interface in a VRF with the proxy ARP attribute (with any value) and has an address; the node gets the extra configuration exactly when one of its interfaces does. Nothing else changes.", "quantifier": "all VRFs, nodes and interfaces", "why_tests_cant": "any number of nodes and interfaces", "anchors": ["netsim/extra/proxy-arp/plugin.py: post_transform"]}
{"id": "C175", "title": "SRv6 locators", "statement": "With a locator prefix of at most three valid parts, the locator of a node consists of the prefix and the hexadecimal node identifier; locators of different nodes have no common address. Netlab ends with an exception exactly when the identifier does not fit in 16 bits. Errors are reported exactly for nodes without an IPv6 loopback and for loopback networks within the locator. Refuted: a loopback network that contains the locator is reported, a locator configured on a node is used, and every identifier gives a locator.", "quantifier": "all prefixes of at most three parts, node identifiers and loopback addresses", "why_tests_cant": "all identifiers and prefixes", "anchors": ["netsim/modules/srv6.py: SRV6.node_post_transform"]}
{"id": "C176", "title": "Primary provider of the topology", "statement": "select_primary_provider replaces the provider of the topology as follows: if all nodes use one provider, that provider; otherwise the first provider of defaults.const.multi_provider that is used by a node; otherwise the provider does not change. A warning is printed exactly when the provider changes. When the default provider is the provider of the topology, every node keeps its provider, whether it is looked up with the new provider of the topology or with the new default provider, and explicit providers of nodes do not change. Refuted: the primary provider is always used by a node (nodes with two providers that are not in the list keep an unused provider).", "quantifier": "all topologies, lists of multi-provider priorities and providers of nodes", "why_tests_cant": "all combinations of providers", "anchors": ["netsim/providers/__init__.py: select_primary_provider", "netsim/augment/devices.py: get_provider"]}
{"id": "C177", "title": "Topologies of individual providers", "statement": "After mark_providers and select_topology for a provider, the links are exactly the links with a node that has that provider, in the original order. All nodes stay; every node has an explicit provider, the one it had or the provider of the topology; a node is unmanaged exactly when it was unmanaged or has another provider.", "quantifier": "all topologies, links without provider information, and providers", "why_tests_cant": "all combinations of nodes, links and providers", "anchors": ["netsim/providers/__init__.py: mark_providers, select_topology"]}
{"id": "C178", "title": "Validation of management addresses", "statement": "validate_mgmt_ip reports exactly: a missing address when an address is required and the node has neither an IPv4 address nor, unless only IPv4 counts, an IPv6 address; for every address family of the node when there is a management pool, a pool without a prefix of that family, or an address whose network contains an address outside of the prefix of the pool.", "quantifier": "all addresses, prefixes and pools", "why_tests_cant": "all addresses and prefixes", "anchors": ["netsim/providers/__init__.py: validate_mgmt_ip"]}
{"id": "C179", "title": "Members of groups created automatically", "statement": "After the automatic creation of group members, the topology has an object in a namespace exactly when it had it before, with the same value, or when the name is a member of a group whose name does not start with an underscore, whose type selects the namespace (nodes by default) and which has _auto_create, or _auto_create is set for all groups of the topology; names of groups and default groups are never created. A created node has its name and an empty list of interfaces, other objects are empty. Global _auto_create does not affect default groups.", "quantifier": "all dictionaries of groups, default groups and objects", "why_tests_cant": "all groups and members", "anchors": ["netsim/augment/groups.py: auto_create_members, precheck_groups"]}
{"id": "C180", "title": "Groups specified in nodes", "statement": "add_node_level_groups appends to a node group the nodes that list the group and are not yet members, once each and in the order of nodes, and creates a missing group; a group keeps its type. Other groups do not change. An error is reported exactly for every pair of a node and a group of another type listed in the node.", "quantifier": "all dictionaries of nodes with unique names and groups", "why_tests_cant": "all nodes and groups", "anchors": ["netsim/augment/groups.py: add_node_level_groups"]}
{"id": "C181", "title": "Groups of BGP autonomous systems", "statement": "create_bgp_autogroups appends to the group as<n>, for every AS number n other than zero, the nodes that run BGP with that AS number, in the order of nodes, and changes no other group. A node runs BGP when bgp is in its list of modules or, without a list of modules, in the modules of the topology; its AS number is its own or else the global one. Errors are reported without repetition exactly for: groups named as<digits> that have static members, and groups as<n> of nodes that have the name of a node.", "quantifier": "all nodes, groups with unique names, lists of modules and AS numbers, for every parser of AS numbers", "why_tests_cant": "all nodes and AS numbers", "anchors": ["netsim/augment/groups.py: create_bgp_autogroups"]}
{"id": "C182", "title": "Objects exported from groups", "statement": "export_group_node_data gives an attribute of an object the value in the topology or, when it has none and the attribute is copied, the value in the first group that has one; groups with names starting with an underscore do not count. An object is in the topology exactly when it was there or is in a group. A conflict is reported exactly for every group that has for a unique attribute a value different from the one that counts before that group.", "quantifier": "all groups with unique object names, objects, copied and unique attributes", "why_tests_cant": "all groups and attributes", "anchors": ["netsim/augment/groups.py: export_group_node_data"]}
{"id": "C183", "title": "Prefixes advertised into BGP", "statement": "bgp_set_advertise does not change interfaces on which BGP is disabled or which have the advertise attribute. On any other interface it sets the attribute exactly when the type or the role of the interface is one of the advertised roles, or the interface is a loopback and loopbacks are advertised. The value is true, except on a stub interface that has an advertised role or type: there it is true exactly when every neighbor is a host without a routing daemon. Nothing else changes.", "quantifier": "all lists of interfaces, neighbors and advertised roles", "why_tests_cant": "all interfaces and roles", "anchors": ["netsim/modules/bgp.py: bgp_set_advertise", "netsim/modules/_routing.py: is_true_stub"]}
{"id": "C184", "title": "BGP address families of originated prefixes", "statement": "After bgp_set_originate_af, an address family is active exactly when it was active, or a prefix is originated (IPv4 only), or the loopback has an address of the family and loopbacks are advertised (the default), or an interface outside of VRFs has the family and is advertised. Every named prefix with an IPv4 component is replaced with it, all other originated prefixes stay in their position; errors are reported exactly for named prefixes without an IPv4 component.", "quantifier": "all nodes, interfaces and named prefixes", "why_tests_cant": "all combinations of interfaces, flags and prefixes", "anchors": ["netsim/modules/bgp.py: bgp_set_originate_af"]}
{"id": "C185", "title": "BGP community keywords", "statement": "bgp_transform_community_list replaces the keywords of every session type with the first occurrences of the device keywords they translate to: no repeated keywords, in the order of the keywords. A missing localas_ibgp list gets the device keywords of IBGP sessions. Errors are reported exactly for every session type and keyword that is not in the table of the device.", "quantifier": "all community lists and tables of device keywords", "why_tests_cant": "all keywords and tables", "anchors": ["netsim/modules/bgp.py: bgp_transform_community_list", "netsim/data/__init__.py: kw_lookup, kw_list_transform"]}
{"id": "C186", "title": "EBGP roles of VLANs and links", "statement": "With a global EBGP role, a global VLAN without a role gets that role exactly when nodes from two autonomous systems are attached to its links, and a link that does not belong to a VLAN and has no role exactly when nodes from two autonomous systems are attached to that link. Existing roles and links of VLANs do not change, and collected AS numbers are removed from VLANs.", "quantifier": "all links, VLANs without collected AS numbers, and AS numbers of nodes", "why_tests_cant": "all links and VLANs", "anchors": ["netsim/modules/bgp.py: vlan_ebgp_role_collect, vlan_ebgp_role_set, ebgp_role_link, BGP.module_pre_link_transform"]}
{"id": "C187", "title": "VRF address families", "statement": "In VRF.node_post_transform, af.vpnv4 (af.vpnv6) of the node is set exactly when an interface in a VRF with a usable RD has an IPv4 (IPv6) address, and af.ipv4 (af.ipv6) of a VRF with a usable RD exactly when one of its interfaces has it; other address families do not change. VRFs without a usable RD do not change, and each interface that uses one is reported, in the order of interfaces; a VRF that does not exist is created without data.", "quantifier": "all lists of interfaces, VRFs and address families", "why_tests_cant": "all sets of interfaces and VRFs", "anchors": ["netsim/modules/vrf.py: VRF.node_post_transform"]}
{"id": "C188", "title": "Need for the VRF module", "statement": "VRF.node_post_transform warns that a node uses no VRFs exactly when no interface is in a VRF, no VRF has the loopback attribute and either there are no VRFs or vrf.loopback of the node is not set; the VRF module is removed exactly when there is a warning and the device does not have the vrf.keep_module feature. A VRF with loopback set to False counts as a used VRF.", "quantifier": "all interfaces, VRFs and node settings", "why_tests_cant": "all combinations of interfaces, VRFs and settings", "anchors": ["netsim/modules/vrf.py: VRF.node_post_transform"]}
{"id": "C189", "title": "AS number for inter-VRF route leaking", "statement": "A VRF leaks routes when its import or export list is neither empty nor just its RD. validate_vrf_route_leaking never changes an existing bgp.as and then reports nothing; without bgp.as it copies vrf.as into bgp.as exactly when a VRF leaks routes; without both, it reports exactly the leaking VRFs in their order.", "quantifier": "all VRFs, route targets and AS numbers", "why_tests_cant": "all combinations of route targets and AS numbers", "anchors": ["netsim/modules/vrf.py: validate_vrf_route_leaking"]}
{"id": "C190", "title": "VRF loopbacks", "statement": "vrf_loopbacks creates exactly one loopback interface for every VRF that has a loopback prefix, in the order of VRFs. The prefix is parsed from the loopback attribute of the VRF (or node), or is the k-th prefix of the vrf_loopback pool, k being the number of earlier VRFs that use the pool. Every new interface has the lowest loopback index not used before, its VRF, addresses and OSPF area; an error means that all 1000 indices are used. Of existing interfaces only unnumbered interfaces in a VRF with an IPv4 loopback change: the loopback becomes their parent. The VRF gets the loopback address, one more network and address families of the loopback; VRFs without a prefix do not change.", "quantifier": "all lists of interfaces, VRFs with distinct names, pools and results of prefix parsing", "why_tests_cant": "all VRFs, interfaces and pools", "anchors": ["netsim/modules/vrf.py: vrf_loopbacks, fix_vrf_unnumbered", "netsim/augment/links.py: get_unique_ifindex, create_virtual_interface"]}
{"id": "C191", "title": "Named prefixes take prefixes from pools in order, once", "statement": "setup_prefixes gives every named prefix that refers to a known pool the next unused prefix of that pool (the k-th one when k earlier named prefixes use the same pool), removes the pool attribute, adds _name unless the pool data has it, and keeps all other attributes unless the pool data replace them. Prefixes without a pool are not changed, names and their order stay the same, and prefixes with an unknown pool are reported in order. Evaluating a named prefix again changes nothing, allocates nothing and returns the same data, and no other named prefix is touched.", "quantifier": "all named prefixes with distinct names, pools and pool contents with distinct attributes", "why_tests_cant": "all sets of named prefixes and pools", "anchors": ["netsim/augment/addressing.py: evaluate_named_prefix, setup_prefixes"]}
{"id": "C192", "title": "Prefix parsing converts addresses and rejects invalid ones", "statement": "parse_prefix of a dictionary fails exactly when it has both ip and ipv4, or when ipv4 (or the legacy ip) or ipv6 is neither a boolean nor a valid network; the result of a failed call is empty. Otherwise the result has exactly the attributes of the dictionary, with ip renamed into ipv4 and networks normalized. A text is the name of a named prefix if there is one (its data are the result), otherwise it must be an IPv4 network. Only named prefixes can change the state of pools.", "quantifier": "all non-empty dictionaries with distinct keys, all non-empty texts, all parsers of networks", "why_tests_cant": "all dictionaries and texts", "anchors": ["netsim/augment/addressing.py: parse_prefix"]}
{"id": "C193", "title": "Links without a prefix get one from the first usable pool", "statement": "assign_link_prefix uses the prefix of the link whenever it has one that is False, has no parsed data or has an IPv4 or IPv6 part; a text is replaced with its ipv4, ipv6, allocation and _name data. Otherwise a link marked unnumbered gets an unnumbered prefix, and every other link gets the prefix of the first existing pool among the pool of the link (or its role) and the default pools, combined with the attributes of its own prefix. An unknown pool of the link is reported, and a missing pool is reported exactly when no candidate exists.", "quantifier": "all links, lists of default pools and pools", "why_tests_cant": "all links and pools", "anchors": ["netsim/augment/links.py: assign_link_prefix", "netsim/augment/addressing.py: get_pool, rebuild_prefix"]}
{"id": "C194", "title": "Gateway addresses are set for numbered address families", "statement": "set_fhrp_gateway changes nothing for links without a gateway ID. Otherwise it sets the gateway address of every numbered address family (present and not a boolean) to the address with the gateway ID in the link prefix, leaves all other gateway attributes alone and reports an error exactly when one of the numbered families has no such address; IPv6 is not processed after an IPv4 error.", "quantifier": "all prefixes, gateway data and address functions", "why_tests_cant": "all links", "anchors": ["netsim/augment/links.py: set_fhrp_gateway"]}
{"id": "C195", "title": "Interface addresses are assigned per address family", "statement": "On links with an unnumbered prefix every interface without an address gets True or False depending on the loopback of its node (True for IPv6 and nothing for IPv4 without a loopback), nodes with host indices are reported, and the prefix and the unnumbered attribute are removed. On other links with a prefix and valid allocation policies assign_interface_addresses never fails with an exception, processes IPv4 before IPv6, skips unused families, copies a boolean prefix to interfaces without addresses, reports unparsable or too small prefixes without changing the interfaces, and otherwise uses the requested (or default) policy. Host bits are checked only when there was no error. Links without a prefix are not changed.", "quantifier": "all links, interfaces, loopbacks and allocation functions", "why_tests_cant": "all links and interfaces", "anchors": ["netsim/augment/links.py: assign_interface_addresses, IPAM_unnumbered"]}
{"id": "C196", "title": "Leftover addresses are removed or reported", "statement": "cleanup_link_interface_AF_entries removes exactly the addresses that are False and keeps all others. It reports exactly the integer addresses and the texts without a slash, IPv4 interfaces first and then IPv6 ones, in the order of interfaces.", "quantifier": "all lists of interfaces with boolean, integer and text addresses", "why_tests_cant": "all lists of interfaces", "anchors": ["netsim/augment/links.py: cleanup_link_interface_AF_entries"]}
{"id": "C197", "title": "Route import requests are checked source by source", "statement": "check_import_request reports devices that cannot import routes into the protocol and changes nothing for them. Otherwise every source protocol that the device cannot import, that does not run on the node (connected always does) or that is the target protocol is reported, in order; requests set to False are removed, True becomes an empty dictionary, everything else is kept, ripv2 is renamed into rip and routing policies of valid requests are added in order. The first valid request with a policy on a device that cannot use policies is reported and ends the processing: later requests are neither checked nor changed. With a device feature set to True instead of a list a request with a policy results in an exception.", "quantifier": "all features, node modules and import dictionaries with distinct keys and values that are booleans or dictionaries", "why_tests_cant": "all import dictionaries and device features", "anchors": ["netsim/modules/_routing.py: check_import_request, node_add_routing_policy"]}
{"id": "C198", "title": "Default route requests are normalized and checked", "statement": "process_default_route removes 'default: False' from the protocol data of the node and its VRFs, turns True into a dictionary with enabled set to True and keeps every other value and all other data. Every remaining request is reported when the device cannot originate default routes; a request with a policy is reported when the feature is not a dictionary with a policy flag, otherwise its policy is added to the node. The global routing table comes first, VRFs follow in order.", "quantifier": "all nodes, VRFs and device features", "why_tests_cant": "all nodes and VRFs", "anchors": ["netsim/modules/_routing.py: default_route_adjust, process_default_route"]}
{"id": "C199", "title": "Routing protocols in VRFs are checked against device features", "statement": "check_vrf_protocol_support on a device without the feature reports the first VRF that uses the protocol (with the address family) and changes nothing; on a device with the feature it reports nothing and adds the address family to the protocol data of exactly the VRFs using both. remove_vrf_routing_blocks removes exactly the protocol data set to False.", "quantifier": "all VRFs, address families and features", "why_tests_cant": "all lists of VRFs", "anchors": ["netsim/modules/_routing.py: check_vrf_protocol_support, remove_vrf_routing_blocks"]}
{"id": "C200", "title": "Unsupported optional IGP attributes are reported", "statement": "check_intf_support reports exactly the optional attributes that the device does not support together with all global interfaces using them (each interface once). REFUTED for VRF interfaces: igp_interfaces compares with the text 'proto' instead of the protocol name, therefore an unsupported attribute on a VRF interface is never reported (unless the interface has an attribute called proto).", "quantifier": "all interfaces, VRF instances and lists of attributes", "why_tests_cant": "all lists of interfaces", "anchors": ["netsim/modules/_routing.py: check_intf_support", "netsim/utils/routing.py: igp_interfaces"]}
{"id": "C201", "title": "Node attributes are copied into interfaces without overriding them", "statement": "copy_node_data_into_interfaces changes only data of node modules with a node_copy list. Module data of an interface that are not a dictionary stay unchanged; otherwise they become the node attributes from the node_copy list, overridden by VRF attributes from the vrf_aware list, overridden by the attributes of the interface (dictionaries are merged). Interfaces do not get empty module data.", "quantifier": "all nodes with distinct modules, VRFs and interfaces", "why_tests_cant": "all nodes and interfaces", "anchors": ["netsim/modules/__init__.py: copy_node_data_into_interfaces"]}
{"id": "C202", "title": "Providers of nodes", "statement": "A provider set on a node is accepted exactly when it is the topology provider, or a known provider listed among those the topology provider can be combined with. The topology provider is removed from the node, and other accepted providers are recorded with the topology; an unknown provider and an incompatible one are reported, and the node is then left alone. Everything else in the node stays.", "quantifier": "all nodes, topology providers and provider settings", "why_tests_cant": "The acceptance depends on two lookups in provider settings; tests use a few pairs of providers that all work.", "anchors": ["netsim/augment/nodes.py:validate_node_provider"]}
{"id": "C203", "title": "Device of a node", "statement": "The device of a node is its own or the default one; the node is accepted exactly when that is the non-empty name of a known device. A node without one and a device that is not known are two different errors, and change nothing but the device attribute. An accepted node gets the provider set by the device when that differs from the topology provider (even when the node has its own), the module list of the device when it has no module list, and device attributes are merged into known attributes.", "quantifier": "all nodes, default devices and device settings", "why_tests_cant": "Tests never use a node whose provider differs from the one its device asks for, nor device values that are not text.", "anchors": ["netsim/augment/nodes.py:find_node_device"]}
{"id": "C204", "title": "Image of a node", "statement": "The image of a node comes from the first of: its box, its image, the image of its device, the image of its device for the provider of the node. Its image attribute is removed exactly when box is not set. A node for which none of these exists, or whose device image is not text, is an error. Node settings of the device for the provider are merged below the settings of the node.", "quantifier": "all nodes, devices and providers (not named box or image)", "why_tests_cant": "Fixed precedence between four sources: tests check a handful of combinations, never the one where two device images exist.", "anchors": ["netsim/augment/nodes.py:find_node_image"]}
{"id": "C205", "title": "Device, provider and image of all nodes", "statement": "Nothing is reported for a node exactly when its provider is acceptable and a device and an image can be chosen for it, whatever other nodes are; the node then has that device, image and provider. A provider that comes from a device is never checked: such a node can end up, without an error, with a provider that cannot be combined with the topology provider (refuted).", "quantifier": "all lists of nodes with different names, sane device settings", "why_tests_cant": "Nodes share state (known attributes, recorded providers); only a proof over all node lists shows that an outcome does not depend on other nodes.", "anchors": ["netsim/augment/nodes.py:augment_node_provider_data", "netsim/augment/nodes.py:find_node_device"]}
{"id": "C206", "title": "Device data copied into a node", "statement": "Attributes of a node are never replaced by those of its device. A known node attribute missing in the node comes from device data for the provider of the node; an attribute still missing comes from the node dictionary of the device. A daemon is marked as such with its parent and its configuration files; configuration files that are not a dictionary are removed and reported.", "quantifier": "all nodes, devices, lists of node attributes", "why_tests_cant": "Three sources with different precedence; tests see only the attributes present in shipped device files.", "anchors": ["netsim/augment/nodes.py:augment_node_device_data"]}
{"id": "C207", "title": "Addresses of the main loopback interface", "statement": "An address set on the loopback interface stays and does not add an address family to the node; a missing one is taken from the pool (the prefix, or its first address for IPv6 prefixes shorter than /128) and adds the family. An unnumbered pool and an IPv4 or IPv6 address that is not text are reported. Address families of a node are only ipv4 and ipv6 if the pool has nothing else; any other setting of the pool, such as prefix6, becomes an address family of the node as well as an attribute of the interface (refuted).", "quantifier": "all loopback settings and all pools", "why_tests_cant": "Expected test results contain the spurious address family; a test that compares with recorded output cannot tell.", "anchors": ["netsim/augment/nodes.py:loopback_interface"]}
{"id": "C208", "title": "Modules of a node and supported devices", "statement": "A node without a list of modules gets the topology modules unless there are none or it is a host that is not a daemon (the role coming from the node or its device); other nodes keep their list. Each module of a node that has no defaults, or whose list of supported devices lacks the device of the node, is reported, and nothing else is.", "quantifier": "all nodes, devices, module lists and module defaults", "why_tests_cant": "Depends on role and daemon attributes which may come from the device, its provider data or the node.", "anchors": ["netsim/modules/__init__.py:augment_node_module", "netsim/modules/__init__.py:check_supported_node_devices"]}
{"id": "C209", "title": "Global module parameters", "statement": "After merging, the settings of a module in use are exactly the topology settings plus those module defaults that may propagate to places the topology says nothing about. Parts of the topology that do not belong to a module in use stay; exactly the modules without defaults are reported.", "quantifier": "all lists of different modules, module defaults and topologies", "why_tests_cant": "Deep merge of nested dictionaries with a list of excluded keys; cannot be enumerated.", "anchors": ["netsim/modules/__init__.py:merge_global_module_params"]}
{"id": "C210", "title": "Order of modules", "statement": "When reordering succeeds, the topology has its own modules and the extra modules it does not have yet, each as often as before, except for modules without defaults; each node with a module list has the same modules except those without defaults, and nodes without a list have none. With two or more modules, every module comes after all modules it requires or must be configured after.", "quantifier": "all module lists, extra modules, nodes and dependencies", "why_tests_cant": "Holds for every dependency graph, not only the shipped one.", "anchors": ["netsim/modules/__init__.py:reorder_node_modules", "netsim/modules/__init__.py:sort_module_list"]}
{"id": "C211", "title": "EVPN address family of BGP sessions", "statement": "The EVPN address family is enabled on a BGP session exactly when it already was or the session type is one of the EVPN session types and the neighbor uses EVPN; nothing else about sessions changes. The transformation crashes exactly when a neighbor over such a session has no list of modules.", "quantifier": "all session types, neighbor lists and module lists of nodes", "why_tests_cant": "Nodes without a list of modules are rare in tests; the exact crash condition is a statement about all topologies.", "anchors": ["netsim/modules/evpn.py:enable_evpn_af"]}
{"id": "C212", "title": "AS number of EVPN route targets", "statement": "The AS number is usable exactly when it is a non-zero integer and comes from evpn.as, or from vrf.as if evpn.as is not set, or from bgp.as if neither is set; a value of a more specific setting that is not an integer is never skipped.", "quantifier": "all values of the three settings", "why_tests_cant": "Truth values of arbitrary data types (booleans, texts, lists) matter.", "anchors": ["netsim/modules/evpn.py:get_usable_evpn_asn"]}
{"id": "C213", "title": "VLAN services and VLAN bundles", "statement": "Only VLANs listed in evpn.vlans change. A VLAN that does not belong to a global VRF with a bundle type gets its configured non-zero EVI or its VLAN ID, and AS:EVI for each missing direction of route targets. A VLAN of a bundle without EVPN attributes gets the bundle type and the EVI of the VRF (the VRF ID unless configured); VLAN names and VLAN IDs in the VRF are exactly those of such members, in the order of evpn.vlans. Exactly the unusable AS numbers, EVIs out of range, unknown bundle types and bundled VLANs with own EVPN attributes are reported. A VLAN of a VRF that is not global is not reported, becomes a service of its own and creates an empty global VRF (the claim that it is reported is refuted).", "quantifier": "all VLANs, VRFs and lists of different existing VLANs", "why_tests_cant": "VLANs change VRFs and VRFs change VLANs created later; correspondence of names and IDs holds for any interleaving of members.", "anchors": ["netsim/modules/evpn.py:create_vlan_service", "netsim/modules/evpn.py:vlan_based_service", "netsim/modules/evpn.py:vlan_aware_bundle_service", "netsim/modules/evpn.py:get_vlan_bundle_flag"]}
{"id": "C214", "title": "EVPN data of VRFs and nodes", "statement": "VRFs with EVPN data keep their EVI or get the VRF ID. Node VRFs with EVPN attributes are exactly those reported. A node takes vlans, vrfs and transport from the topology only if it has none of its own; its lists are trimmed to the VLANs or VRFs the node has, in the order of the node, without duplicates.", "quantifier": "all VRFs, nodes and topologies", "why_tests_cant": "Exactness over arbitrary dictionaries.", "anchors": ["netsim/modules/evpn.py:vrf_irb_setup", "netsim/modules/evpn.py:validate_no_node_vrf_attributes", "netsim/modules/evpn.py:copy_global_evpn_lists", "netsim/modules/evpn.py:trim_node_evpn_lists"]}
{"id": "C215", "title": "IRB modes and bundle types supported by devices", "statement": "A VRF with addresses is reported for symmetric IRB exactly when it has a transit VNI (or transport is MPLS), transport is VXLAN and the device cannot do it; for asymmetric IRB exactly when IRB is not symmetric and the device cannot do that; otherwise exactly its VLANs missing on the node are reported. Bundle types are reported exactly when they are set and not supported.", "quantifier": "all VRFs, transports and device features", "why_tests_cant": "The combination of transport, transit VNI and two device features is not covered by tests.", "anchors": ["netsim/modules/evpn.py:check_node_vrf_irb", "netsim/modules/evpn.py:check_node_vrf_bundle"]}
{"id": "C216", "title": "Modules supported by devices", "statement": "A module (a dictionary in defaults that has attributes) ends up supported on the devices listed before plus, in order and without repetition, exactly those devices that have a feature of that name not set to false; other settings of modules and all settings that are not modules stay. Features set to true or null become empty dictionaries, modules set to false are removed from the features of the device, everything else about devices stays. Processing stops exactly when a feature names a setting that is not a dictionary or a supported module has a device list that is not a list.", "quantifier": "all devices, features and defaults", "why_tests_cant": "The result depends on data types of arbitrary settings; tests use only shipped device files.", "anchors": ["netsim/augment/devices.py:build_module_support_lists"]}
{"id": "C217", "title": "Daemons and device definitions", "statement": "Merging daemons stops exactly when a daemon is not a dictionary or has the name of a device; otherwise every daemon becomes a device marked as a daemon, with its own parent or linux, with the parent saved, and with a device type in group variables unless it has one; all other settings and devices stay. Templates are exactly the devices removed, and exactly the missing interface names and descriptions of the other devices are reported.", "quantifier": "all devices and daemons", "why_tests_cant": "Exactness over arbitrary device dictionaries.", "anchors": ["netsim/augment/devices.py:merge_daemons", "netsim/augment/devices.py:augment_device_settings"]}
{"id": "C218", "title": "Tools of a topology", "statement": "The tools are those of the topology and those enabled by default; known tools without a runtime get docker, nothing else changes. Exactly the unknown tools and the tools without usable runtime data are reported, unless a runtime is missing, is not usable as a key, or its data are a number: the transformation then crashes. So an unknown tool without a runtime crashes instead of being reported, and the runtime set in tool defaults is not used for tools listed in the topology (both refuted by witnesses).", "quantifier": "all tools and tool defaults", "why_tests_cant": "Crash conditions depend on data types of arbitrary settings; the tests have no unknown tool.", "anchors": ["netsim/augment/tools.py:process_tools", "netsim/augment/tools.py:copy_default_tools", "netsim/augment/tools.py:validate_tool_attributes", "netsim/augment/tools.py:merge_tool_defaults"]}
{"id": "C219", "title": "Units of Junos interfaces", "statement": "An interface whose name has no dot becomes unit 0 of itself; other names stay and give the interface and the unit by their first two parts. Names stay different exactly when no interface x has an interface x.0 next to it. Exactly the units 0 whose interface has a VLAN on one of its units become VLAN masters. The MTU with headers is 22 more than the MTU for masters with flexible tagging (routers; switches without VLAN data or in route mode), otherwise 14 more for renamed interfaces, otherwise as before; native VLAN IDs are set on renamed interfaces only. Copies in OSPF lists get the same names.", "quantifier": "all interface lists, names, VLANs, device kinds", "why_tests_cant": "Names with several dots, mixtures of units and all combinations of device kind, VLAN mode and MTU.", "anchors": ["netsim/devices/junos.py:fix_unit_0", "netsim/devices/junos.py:unit_0_trick", "netsim/devices/junos.py:set_junos_mtu"]}
{"id": "C220", "title": "Loopbacks per VRF on Junos", "statement": "Exactly the VRFs with more than one loopback are reported, each once and with the right number, where the main loopback and loopbacks without a VRF count for 'default'. That nothing is reported when every routing table has one loopback is refuted: a VRF called default shares the counter of the global table.", "quantifier": "all interface lists", "why_tests_cant": "Counts for arbitrary numbers of VRFs and loopbacks in any order.", "anchors": ["netsim/devices/junos.py:check_multiple_loopbacks"]}
{"id": "C221", "title": "Tagged VLAN 1 and reserved VLANs", "statement": "Exactly the trunks with VLAN 1 and no native VLAN get the unused native VLAN, none is left, other interfaces do not change, and exactly the changed ones are reported in order unless the warning is switched off. Exactly VLANs 1002 to 1005 (IOS) and VLANs above 3966 (Nexus OS, unless switched off) are reported. When no VLAN is reported and trunks carry VLANs of the node, the added native VLAN is not a VLAN of the node; with the range check of Nexus OS switched off this is refuted.", "quantifier": "all interfaces, VLANs and warning settings", "why_tests_cant": "Relates two checks of which one can be switched off; tests use a few VLANs.", "anchors": ["netsim/devices/nxos.py:vlan_1_tagged", "netsim/devices/nxos.py:check_reserved_vlans", "netsim/devices/iosvl2.py:vlan_1_tagged", "netsim/devices/iosvl2.py:check_reserved_vlans", "netsim/devices/__init__.py:report_quirk"]}
{"id": "C222", "title": "Cumulus NVUE checks", "statement": "Exactly the interfaces with a port priority and no VLAN, and, unless the topology runs PVRST, the VLAN interfaces and trunk VLANs with a port priority are reported; that a node running PVRST itself is not reported is refuted. An interface is reported as a mixed trunk exactly when its native VLAN is routed in the topology and a subinterface is bridged. A node is marked with the first other node having its VTEP, exactly when there is one, and sharing is mutual.", "quantifier": "all interfaces, nodes and VLANs", "why_tests_cant": "Reports for arbitrary lists; node and topology settings that differ.", "anchors": ["netsim/devices/cumulus_nvue.py:nvue_check_stp_features", "netsim/devices/cumulus_nvue.py:nvue_check_native_routed_on_mixed_trunk", "netsim/devices/cumulus_nvue.py:mark_shared_mlag_vtep"]}
{"id": "C223", "title": "Arista EOS bundles and container versions", "statement": "With EVPN over MPLS exactly the VLAN interfaces of bundled VLANs are removed, the order of the others stays, and exactly the bundled VLANs not in bridge mode are reported; without it nothing changes. Container images ceos:4.NN.PF with a two-digit NN and a one-digit P are found too old exactly when they precede 4.32.1F, and images without a version always; that later versions are never reported and earlier ones always are is refuted (4.32.10F, 4.4.0F, registries with a port).", "quantifier": "all VLANs, interfaces, and digits of versions", "why_tests_cant": "Versions are compared as texts; tests use few versions.", "anchors": ["netsim/devices/eos.py:check_mlps_vlan_bundle", "netsim/devices/eos.py:check_mpls_clab"]}
{"id": "C224", "title": "Setup of address pools", "statement": "The pools are the defined ones and lan, loopback and p2p. A false definition gives an empty pool, a text an IPv4 prefix with a length (32 for names containing loopback, otherwise 24), a dictionary is merged into the legacy pool: address families that are false, or of unnumbered pools, disappear, the others are normalized, nothing else changes, and a missing length is added exactly when there is an IPv4 prefix. Exactly the unparsable prefixes are reported, and normalizing a pool again changes nothing. That a pool keeps only the families of its definition is refuted: a lan pool with IPv6 only gets the legacy IPv4 prefix.", "quantifier": "all pool definitions and topology defaults; the address parser is arbitrary", "why_tests_cant": "Definitions have many shapes (false, text, dictionary, unnumbered) merged with legacy defaults.", "anchors": ["netsim/augment/addressing.py:setup_pools", "netsim/augment/addressing.py:normalize_prefix"]}
{"id": "C225", "title": "Cleanup of address pools", "statement": "In the final topology exactly the pool attributes with _pfx or _eui in their names are missing, other attributes and all pools stay.", "quantifier": "all pools and attribute names", "why_tests_cant": "Any attribute name with these parts is affected.", "anchors": ["netsim/augment/topology.py:cleanup_topology"]}
{"id": "C226", "title": "Search paths", "statement": "Outside of keys starting with files or tasks a text or a list of texts becomes the list of its directories, dictionaries keep their keys and other values stay; below such keys the list only loses line breaks. The conversion fails exactly when a list contains something else than texts or a file list is null, a number or a Boolean. That a single file name is kept is refuted: it is taken apart into characters.", "quantifier": "all trees of paths; the directory search is arbitrary", "why_tests_cant": "Trees of any depth; the failure condition speaks about every place in the tree.", "anchors": ["netsim/augment/config.py:make_paths_absolute"]}
{"id": "C227", "title": "Attributes moved from groups to node data", "statement": "Moving attributes into node_data removes from a group exactly the attributes that do not belong to its type and stores their values in node_data; all other attributes of the group and all other entries of node_data stay. The claim that settings present in both places are merged is refuted: the group attribute replaces the entry of node_data.", "quantifier": "all lists of group attributes and all groups (node_data is a group attribute or absent)", "why_tests_cant": "Groups with any number of attributes; tests use one or two.", "anchors": ["netsim/augment/groups.py:check_group_data_structure"]}
{"id": "C228", "title": "Checks of groups", "statement": "check_group_data_structure reports nothing exactly when every group (names starting with an underscore apart) has a valid type, passes the attribute checks, has no members if it is called all, has no module or device in the node_data of a node group and, unless unknown members are pruned, has only objects of its type or groups as members. A group checked without earlier errors has its attributes moved and keeps its members, or with pruning exactly the known ones; a group with errors or checked after an error only gets an empty member list.", "quantifier": "all collections of groups, objects and attribute checks, both settings of pruning", "why_tests_cant": "The condition quantifies over all groups and all members; an error in one group changes the processing of all later ones.", "anchors": ["netsim/augment/groups.py:check_group_data_structure"]}
{"id": "C229", "title": "BGP parameters of nodes", "statement": "check_bgp_parameters reports nothing exactly when the AS number is present and valid and bgp.community, if present, is a text, a list or a dictionary with keys ibgp and ebgp whose values mean lists of valid communities. Then the AS number is the validated one and bgp.community is a dictionary with exactly the lists meant by the original value; other BGP attributes never change, and a node without an AS number is only reported.", "quantifier": "all BGP data of nodes, all nonempty lists of valid communities", "why_tests_cant": "Texts, lists and dictionaries of any shape; tests contain a few combinations.", "anchors": ["netsim/modules/bgp.py:check_bgp_parameters"]}
{"id": "C230", "title": "Validation of BGP session types", "statement": "validate_bgp_sessions returns true exactly when all keys are address families with values that mean lists, reports nothing exactly when these lists also contain only session types, and turns the values into these lists. The claim that a true result means valid session types is refuted: an unknown session type is reported, but the result is true.", "quantifier": "all dictionaries of sessions with distinct keys", "why_tests_cant": "Any keys and values; the refuted claim needs an invalid value inside a valid structure.", "anchors": ["netsim/modules/bgp.py:validate_bgp_sessions"]}
{"id": "C231", "title": "Attributes of VLAN interfaces on links", "statement": "check_link_interface_attributes stops the program exactly for interfaces with an access or native VLAN but no VLAN mode. It accepts interfaces without VLANs and routed interfaces. Any other interface is reported if the VLAN of the link is a global routed VLAN and mixed forwarding is checked; otherwise exactly the attributes that are not physical interface attributes, node, the VLAN mode or an address family set to false are reported.", "quantifier": "all interfaces, links and lists of physical attributes", "why_tests_cant": "The classification covers interfaces with any attributes.", "anchors": ["netsim/modules/vlan.py:check_link_interface_attributes", "netsim/modules/vlan.py:get_vlan_interface_mode"]}
{"id": "C232", "title": "Cleanup of VLAN flags", "statement": "cleanup_vlan_flags removes vlan_name, _global_merge and _vlan_mode from interfaces and _global_merge and neighbors from VLANs of nodes; a _vlan_mode becomes vlan.mode, and all other attributes stay. A second cleanup of an interface changes nothing.", "quantifier": "all interfaces and VLANs", "why_tests_cant": "Any set of attributes; tests compare a few complete topologies.", "anchors": ["netsim/modules/vlan.py:cleanup_vlan_flags"]}
{"id": "C233", "title": "IS-IS on unnumbered interfaces", "statement": "isis_unnumbered reports only the address family when a used unnumbered address family is not supported (IPv4 before IPv6); otherwise it reports exactly the unnumbered IPv4 interfaces with more than one neighbor on devices without support for them. The result is true exactly when nothing is reported.", "quantifier": "all lists of interfaces and all device features", "why_tests_cant": "Any number of interfaces and neighbors.", "anchors": ["netsim/modules/isis.py:isis_unnumbered"]}
{"id": "C234", "title": "Propagation of OSPF node attributes", "statement": "propagate_node_attributes gives every VRF with OSPF data exactly the listed attributes of the node that it does not have, keeps VRFs without OSPF data and everything else in VRFs, and sets the area of the loopback to the area of the node. The claim that an area configured on the loopback stays is refuted.", "quantifier": "all nodes and lists of copied attributes", "why_tests_cant": "Nodes with any number of VRFs and attributes.", "anchors": ["netsim/modules/ospf.py:propagate_node_attributes"]}
{"id": "C235", "title": "Members of LAG links", "statement": "normalized_members returns all members exactly when every member has no LAG attributes (only lag.ifindex, outside peer links) and connects two different nodes; otherwise it returns no members and reports one error.", "quantifier": "all lists of members of LAG links and peer links", "why_tests_cant": "Any number of members with any attributes.", "anchors": ["netsim/modules/lag.py:normalized_members"]}
{"id": "C236", "title": "MLAG peer links", "statement": "create_peer_links pairs the two nodes of a peer link and adds the other members as links when all members connect the same two different nodes of one device type with MLAG support; any other nonempty peer link is reported. The claims that the result is true only without errors and that the pairs are symmetric are refuted (an error in a member still gives true; a node may be in two peer links). For usable peer links without common nodes, the pairs are exactly the two ends of the peer links in both directions; even with errors, paired nodes are different, connected by a member, of one device type and support MLAG.", "quantifier": "all peer links, devices and lists of peer links", "why_tests_cant": "Any number of peer links and members; symmetry of the pairs depends on all peer links of the topology.", "anchors": ["netsim/modules/lag.py:create_peer_links", "netsim/modules/lag.py:check_mlag_support", "netsim/modules/lag.py:module_pre_transform"]}
{"id": "C237", "title": "Early checks of groups", "statement": "check_group_data_sanity returns true exactly when every group outside the system namespace is not named like a node and is a list, or a dictionary without members or with a list or scalar of members (or a text without the word members); then lists become dictionaries with members, scalar members become lists, and nothing else changes. Otherwise the first such group decides: a missing definition, a node name and wrong members are reported, and later groups stay as they are. That every group of a wrong type is reported is refuted: a text passes and a number stops the program.", "quantifier": "all dictionaries of groups and sets of node names", "why_tests_cant": "Any number of groups in any order; tests use a few well-formed groups.", "anchors": ["netsim/augment/groups.py:check_group_data_sanity"]}
{"id": "C238", "title": "Passive OSPF interfaces in VRFs on Cumulus NVUE", "statement": "After nvue_check_ospf_passive_in_vrf no OSPF interface of a VRF is passive; only passive interfaces change, and only in the passive attribute; the interfaces in the warning are exactly the changed ones; a second call changes and reports nothing.", "quantifier": "all VRFs and interfaces of a node", "why_tests_cant": "Any number of VRFs and interfaces with any other attributes.", "anchors": ["netsim/devices/cumulus_nvue.py:nvue_check_ospf_passive_in_vrf"]}
{"id": "C239", "title": "OSPF on secondary loopbacks on Cumulus NVUE", "statement": "nvue_merge_ospf_loopbacks removes the OSPF data exactly from loopbacks outside VRFs whose OSPF data equals that of the primary loopback, or that data with passive set to false, and warns about each of them; every other secondary loopback with OSPF is in the error; other interfaces and attributes stay.", "quantifier": "all primary loopbacks, interfaces and equalities of boxes", "why_tests_cant": "Any number of loopbacks and any OSPF data.", "anchors": ["netsim/devices/cumulus_nvue.py:nvue_merge_ospf_loopbacks"]}
{"id": "C240", "title": "Configuration file of cEOS containers", "statement": "configure_ceos_attributes adds one bind mapping and one configuration template exactly when a serial number or a system address is set in a cEOS container without a mapping of that file; otherwise nothing changes, and a wrong container kind or an existing mapping is reported. A second call changes nothing.", "quantifier": "all node names, bind mappings and templates", "why_tests_cant": "Mappings are arbitrary texts in which the file name may occur anywhere.", "anchors": ["netsim/devices/eos.py:configure_ceos_attributes", "netsim/data/__init__.py:append_to_list"]}
{"id": "C241", "title": "Access links of VLANs", "statement": "create_vlan_access_links appends to the links of the topology exactly the usable links of all VLANs, in the order of VLANs and of their links, each with its access VLAN, its other attributes and the next link index; the links are removed from the VLANs and nothing else changes there. If the existing links have different indexes and none above the last one, all link indexes are different afterwards.", "quantifier": "all VLANs, links and results of adjust_link_object", "why_tests_cant": "Any number of VLANs and links with errors in any of them.", "anchors": ["netsim/modules/vlan.py:create_vlan_access_links", "netsim/augment/links.py:get_next_linkindex"]}
{"id": "C242", "title": "Member links of LAG links", "statement": "create_lag_member_links appends one p2p link without prefix for every member, with the index of the LAG link as parent, the listed attributes of the member or otherwise the L2 attributes of the LAG link, and interfaces with only node and ifindex. Links numbered from one remain numbered from one, so their indexes are different; that indexes are always different is refuted for another first link index (defaults.link_index).", "quantifier": "all LAG links, members and lists of copied attributes without attributes set by the function", "why_tests_cant": "Any number of members and links; tests do not change the first link index.", "anchors": ["netsim/modules/lag.py:create_lag_member_links", "netsim/modules/lag.py:create_l2_link_base", "netsim/augment/links.py:set_linkindex"]}
{"id": "C243", "title": "Checks of prefixes in lab validation", "statement": "With checks that select paths, run_prefix_checks accepts a present prefix exactly when the prefix is found, all requested checks are known, and no check is requested or one path passes all of them; it accepts a missing prefix exactly when the prefix is not found or all requested checks are known and the first requested one selects no path. That a prefix is accepted as missing whenever no path passes all requested checks is refuted.", "quantifier": "all states, lists of checks, requested checks and paths", "why_tests_cant": "Any number of checks and paths in any combination.", "anchors": ["netsim/validate/_common.py:run_prefix_checks", "netsim/validate/_common.py:check_for_prefix"]}
{"id": "C244", "title": "Checks of BGP prefixes on FRR", "statement": "valid_bgp_prefix for FRR without communities accepts a present prefix exactly when it is found and no check is requested or one path has all requested attributes (peer, next hop with or without a prefix length, best, cluster ID, all AS numbers in its segments, AS path, local preference, MED). With communities and without the checks before them, the result depends only on valid community names and on the communities being a part of the texts of some path; that communities are compared as a whole and that later checks are done is refuted.", "quantifier": "all paths, requested values and states", "why_tests_cant": "Any number of paths and combinations of requested attributes; lab validation needs running labs.", "anchors": ["netsim/validate/bgp/frr.py:valid_bgp_prefix", "netsim/validate/bgp/frr.py:check_as_elements", "netsim/validate/bgp/frr.py:check_community", "netsim/validate/bgp/__init__.py:check_community_kw"]}
{"id": "C245", "title": "Validation of OSPF neighbors on FRR", "statement": "valid_ospf_neighbor accepts a present neighbor exactly when its first entry in the results of the VRF (or outside, without results of the VRF) has a state that starts with Full, and an absent neighbor exactly when there is no entry. valid_ospf6_neighbor accepts a present neighbor exactly when the first entry with its router ID before the percent sign is Full, and an absent one exactly when there is no such entry; that a neighbor which is Full on any interface is accepted is refuted.", "quantifier": "all results, router IDs and VRFs", "why_tests_cant": "Any number of neighbors and interfaces; lab validation needs running labs.", "anchors": ["netsim/validate/ospf/frr.py:valid_ospf_neighbor", "netsim/validate/ospf/frr.py:valid_ospf6_neighbor"]}
{"id": "C246", "title": "Validation of IS-IS prefixes and routes on FRR", "statement": "valid_isis_prefix accepts a present prefix exactly when its first entry in all areas (for the level and address family) has the requested cost, if any, and an absent prefix exactly when there is no entry. valid_rt_prefix accepts a prefix exactly when it is not in the table and should be missing, or when it is in the table and the first route has the requested metric, if any. That a route which should be missing is rejected when it is in the table, and that a cost of any entry is accepted, is refuted.", "quantifier": "all results, prefixes, levels, costs and metrics", "why_tests_cant": "Any number of areas, prefixes and routes; lab validation needs running labs.", "anchors": ["netsim/validate/isis/frr.py:valid_isis_prefix", "netsim/validate/isis/frr.py:check_prefix_cost", "netsim/validate/route/frr.py:valid_rt_prefix", "netsim/validate/route/frr.py:check_rt_metric"]}
{"id": "C247", "title": "Validation of BGP neighbors on FRR and EOS", "statement": "With the address of the first neighbor that has the name and the address family, valid_bgp_neighbor accepts a neighbor exactly when it is in an expected state (a part of the expected text or in the list), or when it is not there and should be missing; on FRR an unnumbered neighbor needs an interface name and the peers of the activated address family are used; on EOS a neighbor that is not established is also accepted as missing. That both devices give the same result for a missing neighbor is refuted.", "quantifier": "all neighbors, peers, expected states and address families", "why_tests_cant": "Any number of neighbors with the same name and of peers; lab validation needs running labs.", "anchors": ["netsim/validate/_common.py:get_bgp_neighbor_id", "netsim/validate/bgp/frr.py:valid_bgp_neighbor", "netsim/validate/bgp/eos.py:valid_bgp_neighbor"]}
{"id": "C248", "title": "Validation of IS-IS neighbors on FRR", "statement": "valid_isis_neighbor accepts a present neighbor exactly when its first circuit in all areas has the requested state, level and area (empty texts request nothing), and an absent neighbor exactly when it has no circuit; without areas there are no neighbors. That a neighbor which fits on any circuit is accepted is refuted.", "quantifier": "all areas, circuits and requested values", "why_tests_cant": "Any number of areas and circuits; lab validation needs running labs.", "anchors": ["netsim/validate/isis/frr.py:valid_isis_neighbor", "netsim/validate/isis/frr.py:check_neighbor_state", "netsim/validate/isis/frr.py:check_neighbor_level", "netsim/validate/isis/frr.py:check_neighbor_area"]}
