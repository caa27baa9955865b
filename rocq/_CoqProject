-Q theories Verif
theories/Prelude.v
theories/Ord.v
theories/Txt.v
theories/PyVal.v
theories/SMap.v
theories/Sort.v
theories/PyList.v
theories/Regex.v
theories/S_common.v
theories/M_widcode.v
theories/L_widcode.v
theories/P_widcode.v
theories/S_rice.v
theories/M_rice.v
theories/L_rice.v
theories/P_rice.v
theories/M_nbest.v
theories/S_nbest.v
theories/L_nbest.v
theories/P_nbest.v
theories/Arith.v
theories/S_setops.v
theories/M_setops.v
theories/L_setops.v
theories/P_setops.v
theories/M_field.v
theories/S_field.v
theories/L_field.v
theories/L_fieldsort.v
theories/P_field.v
theories/M_keyword.v
theories/S_keyword.v
theories/L_keyword.v
theories/M_kwheap.v
theories/L_kwheap.v
theories/P_keyword.v
theories/M_topic.v
theories/S_topic.v
theories/L_topic.v
theories/P_topic.v
theories/M_lexicon.v
theories/S_lexicon.v
theories/L_lexicon.v
theories/P_lexicon.v
theories/M_split.v
theories/S_split.v
theories/L_split.v
theories/P_split.v
theories/M_parser.v
theories/S_parser.v
theories/L_token.v
theories/L_parser.v
theories/L_query.v
theories/Text.v
theories/L_queryex.v
theories/P_parser.v
theories/M_tree.v
theories/S_tree.v
theories/L_tree.v
theories/L_treeex.v
theories/P_tree.v
theories/M_baseindex.v
theories/S_text.v
theories/S_score.v
theories/RArith.v
theories/M_okapi.v
theories/M_cosine.v
theories/L_baseindex.v
theories/L_textsys.v
theories/L_okapi.v
theories/L_cosine.v
theories/L_search.v
theories/L_okasearch.v
theories/S_textapi.v
theories/L_cossearch.v
theories/L_textapi.v
theories/L_indep.v
theories/L_costext.v
theories/L_textex.v
theories/P_text.v
theories/L_searchex.v
theories/P_search.v
theories/M_textindex.v
theories/S_textindex.v
theories/S_indep.v
theories/L_weight.v
theories/L_found.v
theories/L_textindex.v
theories/L_indeptext.v
theories/L_rscore.v
theories/L_scoreex.v
theories/L_textscore.v
theories/P_score.v
theories/P_textindex.v
theories/IEEE.v
theories/L_ieee.v
theories/L_interval.v
theories/L_finite.v
theories/L_bound.v
theories/L_ieeetext.v
theories/P_ieee.v
theories/P_indep.v
theories/S_fail.v
theories/L_fail.v
theories/P_fail.v
theories/M_zodb.v
theories/S_zodb.v
theories/L_zodb.v
theories/L_zfield.v
theories/L_zfieldex.v
theories/P_zodb.v
theories/L_zkeyword.v
theories/L_zkeywordex.v
theories/P_zkeyword.v
theories/M_ztext.v
theories/S_ztext.v
theories/L_zlexicon.v
theories/P_zlexicon.v
theories/L_zbase.v
theories/L_ztext.v
theories/L_zokapi.v
theories/L_zframe.v
theories/L_ztextex.v
theories/P_ztext.v
theories/M_sortgen.v
theories/S_sortgen.v
theories/L_sortgen.v
theories/P_sortgen.v
theories/M_ptopic.v
theories/S_ptopic.v
theories/L_ptopic.v
theories/P_ptopic.v
theories/L_e.v
theories/M_alias.v
theories/S_alias.v
theories/L_alias.v
theories/L_quiet.v
theories/L_unit.v
theories/P_alias.v
theories/M_upgrade.v
theories/S_upgrade.v
theories/L_upgrade.v
theories/P_upgrade.v
theories/M_ptext.v
theories/S_ptext.v
theories/L_ptext.v
theories/P_ptext.v
theories/M_pindex.v
theories/S_pindex.v
theories/L_pindex.v
theories/P_pindex.v
theories/M_range.v
theories/S_range.v
theories/L_range.v
theories/P_range.v
theories/M_rtext.v
theories/S_rtext.v
theories/L_rtext.v
theories/L_rtextex.v
theories/P_rtext.v
theories/M_theap.v
theories/S_theap.v
theories/L_theap.v
theories/P_theap.v
theories/M_share.v
theories/S_share.v
theories/L_share.v
theories/L_shareex.v
theories/P_share.v
theories/L_round32.v
theories/S_finite.v
theories/L_finscore.v
theories/L_finb64.v
theories/L_finex.v
theories/P_finite.v
theories/M_okascore.v
theories/S_okascore.v
theories/L_okascore.v
theories/L_okasex.v
theories/P_okascore.v
theories/M_ztopic.v
theories/S_ztopic.v
theories/L_ztopic.v
theories/L_ztserial.v
theories/L_ztopicex.v
theories/P_ztopic.v
theories/M_zcos.v
theories/S_zcos.v
theories/L_zcround.v
theories/L_zcos.v
theories/L_zcframe.v
theories/L_zcosex.v
theories/P_zcos.v
theories/L_zcieee.v
theories/P_zcieee.v
theories/S_terms.v
theories/L_terms.v
theories/P_terms.v
theories/M_fheap.v
theories/S_fheap.v
theories/L_fheap.v
theories/P_fheap.v
theories/S_rsort.v
theories/L_rsort.v
theories/P_rsort.v
