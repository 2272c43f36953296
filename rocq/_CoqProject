-Q theories Verif
theories/Base.v
theories/IdAlloc_Model.v
theories/IdAlloc_Props.v
theories/Pool_Model.v
theories/Pool_Props.v
theories/Ipam_Model.v
theories/Ipam_Props.v
theories/Intf_Model.v
theories/Intf_Props.v
theories/Graph.v
theories/Sort_Model.v
theories/Sort_Props.v
theories/Box_Model.v
theories/Box_Props.v
theories/Groups_Model.v
theories/Groups_Props.v
theories/Dev_Model.v
theories/Dev_Props.v
theories/Mod_Model.v
theories/Mod_Props.v
theories/Text_Model.v
theories/Text_Props.v
theories/Types_Model.v
theories/Types_Props.v
theories/Status_Model.v
theories/Status_Props.v
theories/Vlan_Model.v
theories/Vlan_Props.v
theories/Vrf_Model.v
theories/Vrf_Props.v
theories/Evpn_Model.v
theories/Evpn_Props.v
theories/Bgp_Model.v
theories/Bgp_Props.v
theories/Rid_Model.v
theories/Rid_Props.v
theories/Routing_Model.v
theories/Routing_Props.v
theories/Lag_Model.v
theories/Lag_Props.v
theories/Nodeset_Model.v
theories/Nodeset_Props.v
theories/Mgmt_Model.v
theories/Mgmt_Props.v
theories/Files_Model.v
theories/Files_Props.v
theories/Version_Model.v
theories/Version_Props.v
theories/Log_Model.v
theories/Log_Props.v
theories/Extra_Model.v
theories/Extra_Props.v
theories/Igp_Model.v
theories/Igp_Props.v
theories/Gw_Model.v
theories/Gw_Props.v
theories/Nodes_Model.v
theories/Nodes_Props.v
theories/Dhcp_Model.v
theories/Dhcp_Props.v
theories/Valid_Model.v
theories/Valid_Props.v
theories/Validdef_Props.v
theories/Validns_Props.v
theories/Validok_Props.v
theories/Validval_Props.v
theories/Sroute_Model.v
theories/Sroute_Props.v
theories/Sroutegw_Props.v
theories/Sroutes_Props.v
theories/Sroutenh_Props.v
theories/Sroutefin_Props.v
theories/Sroutedef_Props.v
theories/Svi_Model.v
theories/Svi_Props.v
theories/Sviport_Props.v
theories/Svingb_Props.v
theories/Svitop_Props.v
theories/Svisub_Props.v
theories/Lnk_Model.v
theories/Lnk_Props.v
theories/Lnkgrp_Props.v
theories/Comp_Model.v
theories/Comp_Props.v
theories/Compdef_Props.v
theories/Nodedict_Props.v
theories/Compacc_Props.v
theories/Mpls_Model.v
theories/Mpls_Props.v
theories/Mplsbgp_Props.v
theories/Mplsnode_Props.v
theories/Vlink_Model.v
theories/Vlink_Props.v
theories/Vlinkrule_Props.v
theories/Vmember_Props.v
theories/Vaccess_Props.v
theories/Vtest_Model.v
theories/Vtest_Props.v
theories/Vretry_Props.v
theories/Vexit_Props.v
theories/Clone_Model.v
theories/Clone_Props.v
theories/Clone2_Props.v
theories/Fabric_Model.v
theories/Fabric_Props.v
theories/Sess_Model.v
theories/Sess_Props.v
theories/Sess2_Props.v
theories/Defs_Model.v
theories/Defs_Props.v
theories/Defs2_Props.v
theories/Defs3_Props.v
theories/Defs4_Props.v
theories/Stp_Model.v
theories/Stp_Props.v
theories/Bond_Model.v
theories/Bond_Props.v
theories/Mhop_Model.v
theories/Mhop_Props.v
theories/Pol_Model.v
theories/Pol_Props.v
theories/Dom_Model.v
theories/Dom_Props.v
theories/Loop_Model.v
theories/Loop_Props.v
theories/Conf_Model.v
theories/Conf_Props.v
theories/Srv6_Model.v
theories/Srv6_Props.v
theories/Prov_Model.v
theories/Prov_Props.v
theories/Agrp_Model.v
theories/Agrp_Props.v
theories/Adv_Model.v
theories/Adv_Props.v
theories/Vlb_Model.v
theories/Vlb_Props.v
theories/Asg_Model.v
theories/Asg_Props.v
theories/Imp_Model.v
theories/Imp_Props.v
theories/Ndev_Model.v
theories/Ndev_Props.v
theories/Evs_Model.v
theories/Evs_Props.v
theories/Dfl_Model.v
theories/Dfl_Props.v
theories/Quirk_Model.v
theories/Quirk_Props.v
theories/Pset_Model.v
theories/Pset_Props.v
theories/Gdat_Model.v
theories/Gdat_Props.v
theories/Bchk_Model.v
theories/Bchk_Props.v
theories/Vchk_Model.v
theories/Vchk_Props.v
theories/Plag_Model.v
theories/Plag_Props.v
theories/Gsan_Model.v
theories/Gsan_Props.v
theories/Nvue_Model.v
theories/Nvue_Props.v
theories/Newl_Model.v
theories/Newl_Props.v
theories/Pfx_Model.v
theories/Pfx_Props.v
theories/Vnb_Model.v
theories/Vnb_Props.v
theories/Bnb_Model.v
theories/Bnb_Props.v
