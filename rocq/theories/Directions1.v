(** src/SALib/sample/directions.py:2-5301, transcribed number by number by a script. *)
From Coq Require Import NArith List.
Import ListNotations.
Local Open Scope N_scope.
Definition directions1 : list (list N) := [
[0;1];
[1;1;3];
[1;1;3;1];
[2;1;1;1];
[1;1;1;3;3];
[4;1;3;5;13];
[2;1;1;5;5;17];
[4;1;1;5;5;5];
[7;1;1;7;11;19];
[11;1;1;5;1;1];
[13;1;1;1;3;11];
[14;1;3;5;5;31];
[1;1;3;3;9;7;49];
[13;1;1;1;15;21;21];
[16;1;3;1;13;27;49];
[19;1;1;1;15;7;5];
[22;1;3;1;15;13;25];
[25;1;1;5;5;19;61];
[1;1;3;7;11;23;15;103];
[4;1;3;7;13;13;15;69];
[7;1;1;3;13;7;35;63];
[8;1;3;5;9;1;25;53];
[14;1;3;1;13;9;35;107];
[19;1;3;1;5;27;61;31];
[21;1;1;5;11;19;41;61];
[28;1;3;5;3;3;13;69];
[31;1;1;7;13;1;19;1];
[32;1;3;7;5;13;19;59];
[37;1;1;3;9;25;29;41];
[41;1;3;5;13;23;1;55];
[42;1;3;7;3;13;59;17];
[50;1;3;1;3;5;53;69];
[55;1;1;5;5;23;33;13];
[56;1;1;7;7;1;61;123];
[59;1;1;7;9;13;61;49];
[62;1;3;3;5;3;55;33];
[14;1;3;1;15;31;13;49;245];
[21;1;3;5;15;31;59;63;97];
[22;1;3;1;11;11;11;77;249];
[38;1;3;1;11;27;43;71;9];
[47;1;1;7;15;21;11;81;45];
[49;1;3;7;3;25;31;65;79];
[50;1;3;1;1;19;11;3;205];
[52;1;1;5;9;19;21;29;157];
[56;1;3;7;11;1;33;89;185];
[67;1;3;3;3;15;9;79;71];
[70;1;3;7;11;15;39;119;27];
[84;1;1;3;1;11;31;97;225];
[97;1;1;1;3;23;43;57;177];
[103;1;3;7;7;17;17;37;71];
[115;1;3;1;5;27;63;123;213];
[122;1;1;3;5;11;43;53;133];
[8;1;3;5;5;29;17;47;173;479];
[13;1;3;3;11;3;1;109;9;69];
[16;1;1;1;5;17;39;23;5;343];
[22;1;3;1;5;25;15;31;103;499];
[25;1;1;1;11;11;17;63;105;183];
[44;1;1;5;11;9;29;97;231;363];
[47;1;1;5;15;19;45;41;7;383];
[52;1;3;7;7;31;19;83;137;221];
[55;1;1;1;3;23;15;111;223;83];
[59;1;1;5;13;31;15;55;25;161];
[62;1;1;3;13;25;47;39;87;257];
[67;1;1;1;11;21;53;125;249;293];
[74;1;1;7;11;11;7;57;79;323];
[81;1;1;5;5;17;13;81;3;131];
[82;1;1;7;13;23;7;65;251;475];
[87;1;3;5;1;9;43;3;149;11];
[91;1;1;3;13;31;13;13;255;487];
[94;1;3;3;1;5;63;89;91;127];
[103;1;1;3;3;1;19;123;127;237];
[104;1;1;5;7;23;31;37;243;289];
[109;1;1;5;11;17;53;117;183;491];
[122;1;1;1;5;1;13;13;209;345];
[124;1;1;3;15;1;57;115;7;33];
[137;1;3;1;11;7;43;81;207;175];
[138;1;3;1;1;15;27;63;255;49];
[143;1;3;5;3;27;61;105;171;305];
[145;1;1;5;3;1;3;57;249;149];
[152;1;1;3;5;5;57;15;13;159];
[157;1;1;1;11;7;11;105;141;225];
[167;1;3;3;5;27;59;121;101;271];
[173;1;3;5;9;11;49;51;59;115];
[176;1;1;7;1;23;45;125;71;419];
[181;1;1;3;5;23;5;105;109;75];
[182;1;1;7;15;7;11;67;121;453];
[185;1;3;7;3;9;13;31;27;449];
[191;1;3;1;15;19;39;39;89;15];
[194;1;1;1;1;1;33;73;145;379];
[199;1;3;1;15;15;43;29;13;483];
[218;1;1;7;3;19;27;85;131;431];
[220;1;3;3;3;5;35;23;195;349];
[227;1;3;3;7;9;27;39;59;297];
[229;1;1;3;9;11;17;13;241;157];
[230;1;3;7;15;25;57;33;189;213];
[234;1;1;7;1;9;55;73;83;217];
[236;1;3;3;13;19;27;23;113;249];
[241;1;3;5;3;23;43;3;253;479];
[244;1;1;5;5;11;5;45;117;217];
[253;1;3;3;7;29;37;33;123;147];
[4;1;3;1;15;5;5;37;227;223;459];
[13;1;1;7;5;5;39;63;255;135;487];
[19;1;3;1;7;9;7;87;249;217;599];
[22;1;1;3;13;9;47;7;225;363;247];
[50;1;3;7;13;19;13;9;67;9;737];
[55;1;3;5;5;19;59;7;41;319;677];
[64;1;1;5;3;31;63;15;43;207;789];
[69;1;1;7;9;13;39;3;47;497;169];
[98;1;3;1;7;21;17;97;19;415;905];
[107;1;3;7;1;3;31;71;111;165;127];
[115;1;1;5;11;1;61;83;119;203;847];
[121;1;3;3;13;9;61;19;97;47;35];
[127;1;1;7;7;15;29;63;95;417;469];
[134;1;3;1;9;25;9;71;57;213;385];
[140;1;3;5;13;31;47;101;57;39;341];
[145;1;1;3;3;31;57;125;173;365;551];
[152;1;3;7;1;13;57;67;157;451;707];
[158;1;1;1;7;21;13;105;89;429;965];
[161;1;1;5;9;17;51;45;119;157;141];
[171;1;3;7;7;13;45;91;9;129;741];
[181;1;3;7;1;23;57;67;141;151;571];
[194;1;1;3;11;17;47;93;107;375;157];
[199;1;3;3;5;11;21;43;51;169;915];
[203;1;1;5;3;15;55;101;67;455;625];
[208;1;3;5;9;1;23;29;47;345;595];
[227;1;3;7;7;5;49;29;155;323;589];
[242;1;3;3;7;5;41;127;61;261;717];
[251;1;3;7;7;17;23;117;67;129;1009];
[253;1;1;3;13;11;39;21;207;123;305];
[265;1;1;3;9;29;3;95;47;231;73];
[266;1;3;1;9;1;29;117;21;441;259];
[274;1;3;1;13;21;39;125;211;439;723];
[283;1;1;7;3;17;63;115;89;49;773];
[289;1;3;7;13;11;33;101;107;63;73];
[295;1;1;5;5;13;57;63;135;437;177];
[301;1;1;3;7;27;63;93;47;417;483];
[316;1;1;3;1;23;29;1;191;49;23];
[319;1;1;3;15;25;55;9;101;219;607];
[324;1;3;1;7;7;19;51;251;393;307];
[346;1;3;3;3;25;55;17;75;337;3];
[352;1;1;1;13;25;17;65;45;479;413];
[361;1;1;7;7;27;49;99;161;213;727];
[367;1;3;5;1;23;5;43;41;251;857];
[382;1;3;3;7;11;61;39;87;383;835];
[395;1;1;3;15;13;7;29;7;505;923];
[398;1;3;7;1;5;31;47;157;445;501];
[400;1;1;3;7;1;43;9;147;115;605];
[412;1;3;3;13;5;1;119;211;455;1001];
[419;1;1;3;5;13;19;3;243;75;843];
[422;1;3;7;7;1;19;91;249;357;589];
[426;1;1;1;9;1;25;109;197;279;411];
[428;1;3;1;15;23;57;59;135;191;75];
[433;1;1;5;15;29;21;39;253;383;349];
[446;1;3;3;5;19;45;61;151;199;981];
[454;1;3;5;13;9;61;107;141;141;1];
[457;1;3;1;11;27;25;85;105;309;979];
[472;1;3;3;11;19;7;115;223;349;43];
[493;1;1;7;9;21;39;123;21;275;927];
[505;1;1;7;13;15;41;47;243;303;437];
[508;1;1;1;7;7;3;15;99;409;719];
[2;1;3;3;15;27;49;113;123;113;67;469];
[11;1;3;7;11;3;23;87;169;119;483;199];
[21;1;1;5;15;7;17;109;229;179;213;741];
[22;1;1;5;13;11;17;25;135;403;557;1433];
[35;1;3;1;1;1;61;67;215;189;945;1243];
[49;1;1;7;13;17;33;9;221;429;217;1679];
[50;1;1;3;11;27;3;15;93;93;865;1049];
[56;1;3;7;7;25;41;121;35;373;379;1547];
[61;1;3;3;9;11;35;45;205;241;9;59];
[70;1;3;1;7;3;51;7;177;53;975;89];
[74;1;1;3;5;27;1;113;231;299;759;861];
[79;1;3;3;15;25;29;5;255;139;891;2031];
[84;1;3;1;1;13;9;109;193;419;95;17];
[88;1;1;7;9;3;7;29;41;135;839;867];
[103;1;1;7;9;25;49;123;217;113;909;215];
[104;1;1;7;3;23;15;43;133;217;327;901];
[112;1;1;3;3;13;53;63;123;477;711;1387];
[115;1;1;3;15;7;29;75;119;181;957;247];
[117;1;1;1;11;27;25;109;151;267;99;1461];
[122;1;3;7;15;5;5;53;145;11;725;1501];
[134;1;3;7;1;9;43;71;229;157;607;1835];
[137;1;3;3;13;25;1;5;27;471;349;127];
[146;1;1;1;1;23;37;9;221;269;897;1685];
[148;1;1;3;3;31;29;51;19;311;553;1969];
[157;1;3;7;5;5;55;17;39;475;671;1529];
[158;1;1;7;1;1;35;47;27;437;395;1635];
[162;1;1;7;3;13;23;43;135;327;139;389];
[164;1;3;7;3;9;25;91;25;429;219;513];
[168;1;1;3;5;13;29;119;201;277;157;2043];
[173;1;3;5;3;29;57;13;17;167;739;1031];
[185;1;3;3;5;29;21;95;27;255;679;1531];
[186;1;3;7;15;9;5;21;71;61;961;1201];
[191;1;3;5;13;15;57;33;93;459;867;223];
[193;1;1;1;15;17;43;127;191;67;177;1073];
[199;1;1;1;15;23;7;21;199;75;293;1611];
[213;1;3;7;13;15;39;21;149;65;741;319];
[214;1;3;7;11;23;13;101;89;277;519;711];
[220;1;3;7;15;19;27;85;203;441;97;1895];
[227;1;3;1;3;29;25;21;155;11;191;197];
[236;1;1;7;5;27;11;81;101;457;675;1687];
[242;1;3;1;5;25;5;65;193;41;567;781];
[251;1;3;1;5;11;15;113;77;411;695;1111];
[256;1;1;3;9;11;53;119;171;55;297;509];
[259;1;1;1;1;11;39;113;139;165;347;595];
[265;1;3;7;11;9;17;101;13;81;325;1733];
[266;1;3;1;1;21;43;115;9;113;907;645];
[276;1;1;7;3;9;25;117;197;159;471;475];
[292;1;3;1;9;11;21;57;207;485;613;1661];
[304;1;1;7;7;27;55;49;223;89;85;1523];
[310;1;1;5;3;19;41;45;51;447;299;1355];
[316;1;3;1;13;1;33;117;143;313;187;1073];
[319;1;1;7;7;5;11;65;97;377;377;1501];
[322;1;3;1;1;21;35;95;65;99;23;1239];
[328;1;1;5;9;3;37;95;167;115;425;867];
[334;1;3;3;13;1;37;27;189;81;679;773];
[339;1;1;3;11;1;61;99;233;429;969;49];
[341;1;1;1;7;25;63;99;165;245;793;1143];
[345;1;1;5;11;11;43;55;65;71;283;273];
[346;1;1;5;5;9;3;101;251;355;379;1611];
[362;1;1;1;15;21;63;85;99;49;749;1335];
[367;1;1;5;13;27;9;121;43;255;715;289];
[372;1;3;1;5;27;19;17;223;77;571;1415];
[375;1;1;5;3;13;59;125;251;195;551;1737];
[376;1;3;3;15;13;27;49;105;389;971;755];
[381;1;3;5;15;23;43;35;107;447;763;253];
[385;1;3;5;11;21;3;17;39;497;407;611];
[388;1;1;7;13;15;31;113;17;23;507;1995];
[392;1;1;7;15;3;15;31;153;423;79;503];
[409;1;1;7;9;19;25;23;171;505;923;1989];
[415;1;1;5;9;21;27;121;223;133;87;697];
[416;1;1;5;5;9;19;107;99;319;765;1461];
[421;1;1;3;3;19;25;3;101;171;729;187];
[428;1;1;3;1;13;23;85;93;291;209;37];
[431;1;1;1;15;25;25;77;253;333;947;1073];
[434;1;1;3;9;17;29;55;47;255;305;2037];
[439;1;3;3;9;29;63;9;103;489;939;1523];
[446;1;3;7;15;7;31;89;175;369;339;595];
[451;1;3;7;13;25;5;71;207;251;367;665];
[453;1;3;3;3;21;25;75;35;31;321;1603];
[457;1;1;1;9;11;1;65;5;11;329;535];
[458;1;1;5;3;19;13;17;43;379;485;383];
[471;1;3;5;13;13;9;85;147;489;787;1133];
[475;1;3;1;1;5;51;37;129;195;297;1783];
[478;1;1;3;15;19;57;59;181;455;697;2033];
[484;1;3;7;1;27;9;65;145;325;189;201];
[493;1;3;1;15;31;23;19;5;485;581;539];
[494;1;1;7;13;11;15;65;83;185;847;831];
[499;1;3;5;7;7;55;73;15;303;511;1905];
[502;1;3;5;9;7;21;45;15;397;385;597];
[517;1;3;7;3;23;13;73;221;511;883;1265];
[518;1;1;3;11;1;51;73;185;33;975;1441];
[524;1;3;3;9;19;59;21;39;339;37;143];
[527;1;1;7;1;31;33;19;167;117;635;639];
[555;1;1;1;3;5;13;59;83;355;349;1967];
[560;1;1;1;5;19;3;53;133;97;863;983];
[565;1;3;1;13;9;41;91;105;173;97;625];
[569;1;1;5;3;7;49;115;133;71;231;1063];
[578;1;1;7;5;17;43;47;45;497;547;757];
[580;1;3;5;15;21;61;123;191;249;31;631];
[587;1;3;7;9;17;7;11;185;127;169;1951];
[589;1;1;5;13;11;11;9;49;29;125;791];
[590;1;1;1;15;31;41;13;167;273;429;57];
[601;1;3;5;3;27;7;35;209;65;265;1393];
[607;1;3;1;13;31;19;53;143;135;9;1021];
[611;1;1;7;13;31;5;115;153;143;957;623];
[614;1;1;5;11;25;19;29;31;297;943;443];
[617;1;3;3;5;21;11;127;81;479;25;699];
[618;1;1;3;11;25;31;97;19;195;781;705];
[625;1;1;5;5;31;11;75;207;197;885;2037];
[628;1;1;1;11;9;23;29;231;307;17;1497];
[635;1;1;5;11;11;43;111;233;307;523;1259];
[641;1;1;7;5;1;21;107;229;343;933;217];
[647;1;1;1;11;3;21;125;131;405;599;1469];
[654;1;3;5;5;9;39;33;81;389;151;811];
[659;1;1;7;7;7;1;59;223;265;529;2021];
[662;1;3;1;3;9;23;85;181;47;265;49];
[672;1;3;5;11;19;23;9;7;157;299;1983];
[675;1;3;1;5;15;5;21;105;29;339;1041];
[682;1;1;1;1;5;33;65;85;111;705;479];
[684;1;1;1;7;9;35;77;87;151;321;101];
[689;1;1;5;7;17;1;51;197;175;811;1229];
[695;1;3;3;15;23;37;85;185;239;543;731];
[696;1;3;1;7;7;55;111;109;289;439;243];
[713;1;1;7;11;17;53;35;217;259;853;1667];
[719;1;3;1;9;1;63;87;17;73;565;1091];
[724;1;1;3;3;11;41;1;57;295;263;1029];
[733;1;1;5;1;27;45;109;161;411;421;1395];
[734;1;3;5;11;25;35;47;191;339;417;1727];
[740;1;1;5;15;21;1;93;251;351;217;1767];
[747;1;3;3;11;3;7;75;155;313;211;491];
[749;1;3;3;5;11;9;101;161;453;913;1067];
[752;1;1;3;1;15;45;127;141;163;727;1597];
[755;1;3;3;7;1;33;63;73;73;341;1691];
[762;1;3;5;13;15;39;53;235;77;99;949];
[770;1;1;5;13;31;17;97;13;215;301;1927];
[782;1;1;7;1;1;37;91;93;441;251;1131];
[784;1;3;7;9;25;5;105;69;81;943;1459];
[787;1;3;7;11;31;43;13;209;27;1017;501];
[789;1;1;7;15;1;33;31;233;161;507;387];
[793;1;3;3;5;5;53;33;177;503;627;1927];
[796;1;1;7;11;7;61;119;31;457;229;1875];
[803;1;1;5;15;19;5;53;201;157;885;1057];
[805;1;3;7;9;1;35;51;113;249;425;1009];
[810;1;3;5;7;21;53;37;155;119;345;631];
[815;1;3;5;7;15;31;109;69;503;595;1879];
[824;1;3;3;1;25;35;65;131;403;705;503];
[829;1;3;7;7;19;33;11;153;45;633;499];
[830;1;3;3;5;11;3;29;93;487;33;703];
[832;1;1;3;15;21;53;107;179;387;927;1757];
[841;1;1;3;7;21;45;51;147;175;317;361];
[847;1;1;1;7;7;13;15;243;269;795;1965];
[849;1;1;3;5;19;33;57;115;443;537;627];
[861;1;3;3;9;3;39;25;61;185;717;1049];
[871;1;3;7;3;7;37;107;153;7;269;1581];
[878;1;1;7;3;7;41;91;41;145;489;1245];
[889;1;1;5;9;7;7;105;81;403;407;283];
[892;1;1;7;9;27;55;29;77;193;963;949];
[901;1;1;5;3;25;51;107;63;403;917;815];
[908;1;1;7;3;7;61;19;51;457;599;535];
[920;1;3;7;1;23;51;105;153;239;215;1847];
[923;1;1;3;5;27;23;79;49;495;45;1935];
[942;1;1;1;11;11;47;55;133;495;999;1461];
[949;1;1;3;15;27;51;93;17;355;763;1675];
[950;1;3;1;3;1;3;79;119;499;17;995];
[954;1;1;1;1;15;43;45;17;167;973;799];
[961;1;1;1;3;27;49;89;29;483;913;2023];
[968;1;1;3;3;5;11;75;7;41;851;611];
[971;1;3;1;3;7;57;39;123;257;283;507];
[973;1;3;3;11;27;23;113;229;187;299;133];
[979;1;1;3;13;9;63;101;77;451;169;337];
[982;1;3;7;3;3;59;45;195;229;415;409];
[986;1;3;5;3;11;19;71;93;43;857;369];
[998;1;3;7;9;19;33;115;19;241;703;247];
[1001;1;3;5;11;5;35;21;155;463;1005;1073];
[1010;1;3;7;3;25;15;109;83;93;69;1189];
[1012;1;3;5;7;5;21;93;133;135;167;903];
[41;1;1;7;7;3;59;121;161;285;815;1769;3705];
[52;1;3;1;1;3;47;103;171;381;609;185;373];
[61;1;3;3;15;23;33;107;131;441;445;689;2059];
[62;1;3;3;11;7;53;101;167;435;803;1255;3781];
[76;1;1;5;11;15;59;41;19;135;835;1263;505];
[104;1;1;7;11;21;49;23;219;127;961;1065;385];
[117;1;3;5;15;7;47;117;217;45;731;1639;733];
[131;1;1;7;11;27;57;91;87;81;35;1269;1007];
[143;1;1;3;11;15;37;53;219;193;937;1899;3733];
[145;1;3;5;3;13;11;27;19;199;393;965;2195];
[157;1;3;1;3;5;1;37;173;413;1023;553;409];
[167;1;3;1;7;15;29;123;95;255;373;1799;3841];
[171;1;3;5;13;21;57;51;17;511;195;1157;1831];
[176;1;1;1;15;29;19;7;73;295;519;587;3523];
[181;1;1;5;13;13;35;115;191;123;535;717;1661];
[194;1;3;3;5;23;21;47;251;379;921;1119;297];
[217;1;3;3;9;29;53;121;201;135;193;523;2943];
[236;1;1;1;7;29;45;125;9;99;867;425;601];
[239;1;3;1;9;13;15;67;181;109;293;1305;3079];
[262;1;3;3;9;5;35;15;209;305;87;767;2795];
[283;1;3;3;11;27;57;113;123;179;643;149;523];
[286;1;1;3;15;11;17;67;223;63;657;335;3309];
[307;1;1;1;9;25;29;109;159;39;513;571;1761];
[313;1;1;3;1;5;63;75;19;455;601;123;691];
[319;1;1;1;3;21;5;45;169;377;513;1951;2565];
[348;1;1;3;11;3;33;119;69;253;907;805;1449];
[352;1;1;5;13;31;15;17;7;499;61;687;1867];
[357;1;3;7;11;17;33;73;77;299;243;641;2345];
[391;1;1;7;11;9;35;31;235;359;647;379;1161];
[398;1;3;3;15;31;25;5;67;33;45;437;4067];
[400;1;1;3;11;7;17;37;87;333;253;1517;2921];
[412;1;1;7;15;7;15;107;189;153;769;1521;3427];
[415;1;3;5;13;5;61;113;37;293;393;113;43];
[422;1;1;1;15;29;43;107;31;167;147;301;1021];
[440;1;1;1;13;3;1;35;93;195;181;2027;1491];
[460;1;3;3;3;13;33;77;199;153;221;1699;3671];
[465;1;3;5;13;7;49;123;155;495;681;819;809];
[468;1;3;5;15;27;61;117;189;183;887;617;4053];
[515;1;1;1;7;31;59;125;235;389;369;447;1039];
[536;1;3;5;1;5;39;115;89;249;377;431;3747];
[539;1;1;1;5;7;47;59;157;77;445;699;3439];
[551;1;1;3;5;11;21;19;75;11;599;1575;735];
[558;1;3;5;3;19;13;41;69;199;143;1761;3215];
[563;1;3;5;7;19;43;25;41;41;11;1647;2783];
[570;1;3;1;9;19;45;111;97;405;399;457;3219];
[595;1;1;3;1;23;15;65;121;59;985;829;2259];
[598;1;1;3;7;17;13;107;229;75;551;1299;2363];
[617;1;1;5;5;21;57;23;199;509;139;2007;3875];
[647;1;3;1;11;19;53;15;229;215;741;695;823];
[654;1;3;7;1;29;3;17;163;417;559;549;319];
[678;1;3;1;13;17;9;47;133;365;7;1937;1071];
[713;1;3;5;7;19;37;55;163;301;249;689;2327];
[738;1;3;5;13;11;23;61;205;257;377;615;1457];
[747;1;3;5;1;23;37;13;75;331;495;579;3367];
[750;1;1;1;9;1;23;49;129;475;543;883;2531];
[757;1;3;1;5;23;59;51;35;343;695;219;369];
[772;1;3;3;1;27;17;63;97;71;507;1929;613];
[803;1;1;5;1;21;31;11;109;247;409;1817;2173];
[810;1;1;3;15;23;9;7;209;301;23;147;1691];
[812;1;1;7;5;5;19;37;229;249;277;1115;2309];
[850;1;1;1;5;5;63;5;249;285;431;343;2467];
[862;1;1;1;11;7;45;35;75;505;537;29;2919];
[906;1;3;5;15;11;39;15;63;263;9;199;445];
[908;1;3;3;3;27;63;53;171;227;63;1049;827];
[929;1;1;3;13;7;11;115;183;179;937;1785;381];
[930;1;3;1;11;13;15;107;81;53;295;1785;3757];
[954;1;3;3;13;11;5;109;243;3;505;323;1373];
[964;1;3;3;11;21;51;17;177;381;937;1263;3889];
[982;1;3;5;9;27;25;85;193;143;573;1189;2995];
[985;1;3;5;11;13;9;81;21;159;953;91;1751];
[991;1;1;3;3;27;61;11;253;391;333;1105;635];
[992;1;3;3;15;9;57;95;81;419;735;251;1141];
[1067;1;1;5;9;31;39;59;13;319;807;1241;2433];
[1070;1;3;3;5;27;13;107;141;423;937;2027;3233];
[1096;1;3;3;9;9;25;125;23;443;835;1245;847];
[1099;1;1;7;15;17;17;83;107;411;285;847;1571];
[1116;1;1;3;13;29;61;37;81;349;727;1453;1957];
[1143;1;3;7;11;31;13;59;77;273;591;1265;1533];
[1165;1;1;7;7;13;17;25;25;187;329;347;1473];
[1178;1;3;7;7;5;51;37;99;221;153;503;2583];
[1184;1;3;1;13;19;27;11;69;181;479;1183;3229];
[1202;1;3;3;13;23;21;103;147;323;909;947;315];
[1213;1;3;1;3;23;1;31;59;93;513;45;2271];
[1221;1;3;5;1;7;43;109;59;231;41;1515;2385];
[1240;1;3;1;5;31;57;49;223;283;1013;11;701];
[1246;1;1;5;1;19;53;55;31;31;299;495;693];
[1252;1;3;3;9;5;33;77;253;427;791;731;1019];
[1255;1;3;7;11;1;9;119;203;53;877;1707;3499];
[1267;1;1;3;7;13;39;55;159;423;113;1653;3455];
[1293;1;1;3;5;21;47;51;59;55;411;931;251];
[1301;1;3;7;3;31;25;81;115;405;239;741;455];
[1305;1;1;5;1;31;3;101;83;479;491;1779;2225];
[1332;1;3;3;3;9;37;107;161;203;503;767;3435];
[1349;1;3;7;9;1;27;61;119;233;39;1375;4089];
[1384;1;1;5;9;1;31;45;51;369;587;383;2813];
[1392;1;3;7;5;31;7;49;119;487;591;1627;53];
[1402;1;1;7;1;9;47;1;223;369;711;1603;1917];
[1413;1;3;5;3;21;37;111;17;483;739;1193;2775];
[1417;1;3;3;7;17;11;51;117;455;191;1493;3821];
[1423;1;1;5;9;23;39;99;181;343;485;99;1931];
[1451;1;3;1;7;29;49;31;71;489;527;1763;2909];
[1480;1;1;5;11;5;5;73;189;321;57;1191;3685];
[1491;1;1;5;15;13;45;125;207;371;415;315;983];
[1503;1;3;3;5;25;59;33;31;239;919;1859;2709];
[1504;1;3;5;13;27;61;23;115;61;413;1275;3559];
[1513;1;3;7;15;5;59;101;81;47;967;809;3189];
[1538;1;1;5;11;31;15;39;25;173;505;809;2677];
[1544;1;1;5;9;19;13;95;89;511;127;1395;2935];
[1547;1;1;5;5;31;45;9;57;91;303;1295;3215];
[1555;1;3;3;3;19;15;113;187;217;489;1285;1803];
[1574;1;1;3;1;13;29;57;139;255;197;537;2183];
[1603;1;3;1;15;11;7;53;255;467;9;757;3167];
[1615;1;3;3;15;21;13;9;189;359;323;49;333];
[1618;1;3;7;11;7;37;21;119;401;157;1659;1069];
[1629;1;1;5;7;17;33;115;229;149;151;2027;279];
[1634;1;1;5;15;5;49;77;155;383;385;1985;945];
[1636;1;3;7;3;7;55;85;41;357;527;1715;1619];
[1639;1;1;3;1;21;45;115;21;199;967;1581;3807];
[1657;1;1;3;7;21;39;117;191;169;73;413;3417];
[1667;1;1;1;13;1;31;57;195;231;321;367;1027];
[1681;1;3;7;3;11;29;47;161;71;419;1721;437];
[1697;1;1;7;3;11;9;43;65;157;1;1851;823];
[1704;1;1;1;5;21;15;31;101;293;299;127;1321];
[1709;1;1;7;1;27;1;11;229;241;705;43;1475];
[1722;1;3;7;1;5;15;73;183;193;55;1345;49];
[1730;1;3;3;3;19;3;55;21;169;663;1675;137];
[1732;1;1;1;13;7;21;69;67;373;965;1273;2279];
[1802;1;1;7;7;21;23;17;43;341;845;465;3355];
[1804;1;3;5;5;25;5;81;101;233;139;359;2057];
[1815;1;1;3;11;15;39;55;3;471;765;1143;3941];
[1826;1;1;7;15;9;57;81;79;215;433;333;3855];
[1832;1;1;5;5;19;45;83;31;209;363;701;1303];
[1843;1;3;7;5;1;13;55;163;435;807;287;2031];
[1849;1;3;3;7;3;3;17;197;39;169;489;1769];
[1863;1;1;3;5;29;43;87;161;289;339;1233;2353];
[1905;1;3;3;9;21;9;77;1;453;167;1643;2227];
[1928;1;1;7;1;15;7;67;33;193;241;1031;2339];
[1933;1;3;1;11;1;63;45;65;265;661;849;1979];
[1939;1;3;1;13;19;49;3;11;159;213;659;2839];
[1976;1;3;5;11;9;29;27;227;253;449;1403;3427];
[1996;1;1;3;1;7;3;77;143;277;779;1499;475];
[2013;1;1;1;5;11;23;87;131;393;849;193;3189];
[2014;1;3;5;11;3;3;89;9;449;243;1501;1739];
[2020;1;3;1;9;29;29;113;15;65;611;135;3687];
[13;1;1;1;9;21;19;39;151;395;501;1339;959;2725];
[19;1;3;7;1;7;35;45;33;119;225;1631;1695;1459];
[26;1;1;1;3;25;55;37;79;167;907;1075;271;4059];
[41;1;3;5;13;5;13;53;165;437;67;1705;3177;8095];
[50;1;3;3;13;27;57;95;55;443;245;1945;1725;1929];
[55;1;3;1;9;5;33;109;35;99;827;341;2401;2411];
[69;1;1;5;9;7;33;43;39;87;799;635;3481;7159];
[70;1;3;1;1;31;15;45;27;337;113;987;2065;2529];
[79;1;1;5;9;5;15;105;123;479;289;1609;2177;4629];
[82;1;3;5;11;31;47;97;87;385;195;1041;651;3271];
[87;1;1;3;7;17;3;101;55;87;629;1687;1387;2745];
[93;1;3;5;5;7;21;9;237;313;549;1107;117;6183];
[94;1;1;3;9;9;5;55;201;487;851;1103;2993;4055];
[97;1;1;5;9;31;19;59;7;363;381;1167;2057;5715];
[100;1;3;3;15;23;63;19;227;387;827;487;1049;7471];
[112;1;3;1;5;23;25;61;245;363;863;963;3583;6475];
[121;1;1;5;1;5;27;81;85;275;49;235;3291;1195];
[134;1;1;5;7;23;53;85;107;511;779;1265;1093;7859];
[138;1;3;3;1;9;21;75;219;59;485;1739;3845;1109];
[148;1;3;5;1;13;41;19;143;293;391;2023;1791;4399];
[151;1;3;7;15;21;13;21;195;215;413;523;2099;2341];
[157;1;1;1;3;29;51;47;57;135;575;943;1673;541];
[161;1;3;5;1;9;13;113;175;447;115;657;4077;5973];
[179;1;1;1;11;17;41;37;95;297;579;911;2207;2387];
[181;1;3;5;3;23;11;23;231;93;667;711;1563;7961];
[188;1;1;7;3;17;59;13;181;141;991;1817;457;1711];
[196;1;3;3;5;31;59;81;205;245;537;1049;997;1815];
[203;1;3;7;5;17;13;9;79;17;185;5;2211;6263];
[206;1;3;7;13;7;53;61;145;13;285;1203;947;2933];
[223;1;1;7;3;31;19;69;217;47;441;1893;673;4451];
[224;1;1;1;1;25;9;23;225;385;629;603;3747;4241];
[227;1;3;1;9;5;37;31;237;431;79;1521;459;2523];
[230;1;3;7;3;9;43;105;179;5;225;799;1777;4893];
[239;1;1;3;1;29;45;29;159;267;247;455;847;3909];
[241;1;1;3;7;25;21;121;57;467;275;719;1521;7319];
[248;1;3;1;3;11;35;119;123;81;979;1187;3623;4293];
[253;1;1;1;7;15;25;121;235;25;487;873;1787;1977];
[268;1;1;1;11;3;7;17;135;345;353;383;4011;2573];
[274;1;3;7;15;27;13;97;123;65;675;951;1285;6559];
[283;1;3;7;3;7;1;71;19;325;765;337;1197;2697];
[286;1;3;5;1;31;37;11;71;169;283;83;3801;7083];
[289;1;1;3;15;17;29;83;65;275;679;1749;4007;7749];
[301;1;1;3;1;21;11;41;95;237;361;1819;2783;2383];
[302;1;3;7;11;29;57;111;187;465;145;605;1987;8109];
[316;1;1;3;3;19;15;55;83;357;1001;643;1517;6529];
[319;1;3;1;5;29;35;73;23;77;619;1523;1725;8145];
[324;1;1;5;5;19;23;7;197;449;337;717;2921;315];
[331;1;3;5;9;7;63;117;97;97;813;1925;2817;1579];
[333;1;1;1;11;31;7;25;235;231;133;1007;1371;1553];
[345;1;1;7;5;19;7;47;171;267;243;1331;567;6033];
[351;1;1;5;1;7;49;55;89;109;735;1455;3193;6239];
[358;1;1;1;7;1;61;9;103;3;929;1481;2927;2957];
[375;1;1;5;13;17;21;75;49;255;1019;1161;2133;1177];
[379;1;3;1;3;13;15;41;247;211;409;1163;523;2635];
[381;1;3;7;7;21;59;91;149;479;391;681;2311;6249];
[386;1;1;5;11;27;53;21;211;197;815;719;1605;255];
[403;1;1;3;3;9;33;59;3;323;1;101;1135;8105];
[405;1;3;3;1;29;5;17;141;51;991;841;327;3859];
[419;1;3;1;5;11;19;23;89;175;173;165;2881;1881];
[426;1;1;1;15;13;51;87;39;495;611;1341;1531;7029];
[428;1;1;3;11;13;55;75;185;57;61;1917;2051;5965];
[439;1;1;5;5;7;53;11;217;213;933;921;3607;5175];
[440;1;3;3;5;17;53;103;251;369;781;1319;3717;4439];
[446;1;3;5;13;1;39;25;235;321;773;251;3111;6397];
[451;1;1;7;3;31;5;25;29;325;385;1313;127;4705];
[454;1;1;5;15;15;27;15;85;239;243;1633;3473;2621];
[458;1;3;3;3;9;19;113;13;137;165;25;2957;7549];
[465;1;3;1;3;11;21;3;97;417;183;1205;1437;247];
[468;1;1;7;3;17;21;125;55;67;387;385;2323;887];
[472;1;3;5;5;29;11;103;223;233;641;133;415;1297];
[475;1;3;3;11;1;9;5;189;235;1007;1363;3985;889];
[477;1;3;7;9;23;19;19;183;269;403;1643;3559;5189];
[496;1;3;7;3;29;45;17;69;475;149;1291;2689;7625];
[502;1;3;7;3;27;37;41;73;253;1001;431;1111;7887];
[508;1;1;7;5;3;7;87;143;289;495;631;3011;6151];
[517;1;1;1;13;5;45;17;167;23;975;801;1975;6833];
[521;1;3;1;11;7;21;39;23;213;429;1301;2059;197];
[527;1;3;3;15;3;57;121;133;29;711;1961;2497;189];
[530;1;1;3;5;11;55;115;137;233;673;985;2849;5911];
[532;1;1;7;15;29;45;1;241;329;323;925;2821;3331];
[542;1;1;5;7;13;31;81;105;199;145;195;1365;5119];
[552;1;3;7;11;3;55;11;31;117;343;1265;1837;2451];
[555;1;1;3;7;29;57;61;179;429;591;177;1945;2159];
[560;1;3;5;11;23;49;101;137;339;323;1035;1749;7737];
[566;1;3;1;13;21;35;55;79;19;269;1055;2651;7083];
[575;1;3;3;11;9;9;95;167;437;361;1185;4083;603];
[577;1;1;1;7;31;61;77;65;489;657;691;2423;4147];
[589;1;3;5;7;21;37;87;191;311;453;2013;829;2619];
[590;1;1;5;9;17;47;35;101;5;813;1157;1279;7365];
[602;1;1;5;3;11;35;113;199;369;721;901;1471;7801];
[607;1;3;1;5;9;61;83;157;391;739;1957;2123;4341];
[608;1;3;5;11;19;19;111;225;383;219;997;717;7505];
[611;1;3;1;11;13;63;35;127;209;831;501;3017;3507];
[613;1;3;7;9;29;7;11;163;81;563;1445;3215;6377];
[625;1;3;7;11;25;3;39;195;491;45;839;4021;4899];
[644;1;3;7;15;13;5;67;143;117;505;1281;3679;5695];
[651;1;3;7;9;9;19;21;221;147;763;683;2211;589];
[654;1;1;3;5;21;47;53;109;299;807;1153;1209;7961];
[656;1;3;7;11;9;31;45;43;505;647;1127;2681;4917];
[662;1;1;5;15;31;41;63;113;399;727;673;2587;5259];
[668;1;1;1;13;17;53;35;99;57;243;1447;1919;2831];
[681;1;3;7;11;23;51;13;9;49;449;997;3073;4407];
[682;1;3;5;7;23;33;89;41;415;53;697;1113;1489];
[689;1;1;3;7;1;13;29;13;255;749;77;3463;1761];
[696;1;3;3;7;13;15;93;191;309;869;739;1041;3053];
[699;1;3;5;13;5;19;109;211;347;839;893;2947;7735];
[707;1;3;1;13;27;3;119;157;485;99;1703;3895;573];
[709;1;3;7;11;1;23;123;105;31;359;275;1775;3685];
[714;1;3;3;5;27;11;125;3;413;199;2043;2895;2945];
[716;1;3;3;3;15;49;121;159;233;543;193;4007;321];
[719;1;1;3;5;9;47;87;1;51;1011;1595;2239;6467];
[727;1;3;7;9;1;33;87;137;469;749;1413;805;6817];
[734;1;3;1;13;19;45;95;227;29;677;1275;3395;4451];
[738;1;1;7;5;7;63;33;71;443;561;1311;3069;6943];
[743;1;1;1;13;9;37;23;69;13;415;1479;1197;861];
[747;1;3;3;13;27;21;13;233;105;777;345;2443;1105];
[757;1;1;7;11;23;13;21;147;221;549;73;2729;6279];
[769;1;1;7;7;25;27;15;45;227;39;75;1191;3563];
[770;1;1;5;7;13;49;99;167;227;13;353;1047;8075];
[776;1;1;3;13;31;9;27;7;461;737;1559;3243;53];
[790;1;3;1;1;21;41;97;165;171;821;587;2137;2293];
[799;1;3;1;11;17;41;29;187;87;599;1467;1395;5931];
[805;1;1;1;9;9;49;89;205;409;453;61;1923;1257];
[809;1;3;7;3;9;43;89;143;431;83;1243;1795;3599];
[812;1;3;5;13;3;25;59;219;43;223;797;2651;6015];
[820;1;1;5;15;7;55;65;207;213;311;1287;1269;6467];
[827;1;3;7;11;21;57;31;183;351;857;911;1683;7155];
[829;1;3;5;11;27;1;21;47;387;383;1593;115;3805];
[835;1;3;1;1;13;23;87;173;181;619;1653;3931;6073];
[841;1;1;7;5;17;43;37;61;307;621;1785;55;115];
[844;1;3;7;15;25;61;123;15;237;671;1473;467;1907];
[856;1;1;7;5;29;57;75;237;85;699;159;3577;4771];
[859;1;1;1;11;25;19;51;1;147;31;895;2617;625];
[862;1;3;7;5;29;15;115;175;395;391;1141;1827;1181];
[865;1;3;5;7;17;7;11;193;89;243;561;3787;4551];
[885;1;3;1;11;7;57;7;125;403;947;1261;409;8083];
[890;1;1;5;13;21;63;115;233;231;921;1747;3635;2519];
[905;1;1;5;11;3;27;15;91;505;591;1451;3881;2997];
[916;1;1;3;11;21;9;109;153;317;533;593;3967;2797];
[925;1;3;3;13;9;57;121;245;219;867;967;791;7095];
[935;1;1;1;9;29;21;99;35;375;959;329;4087;7171];
[939;1;1;1;9;11;17;17;97;89;135;631;3809;3253];
[942;1;1;1;15;21;51;91;249;459;801;757;2353;2033];
[949;1;3;5;9;23;29;77;53;399;767;1817;2171;1629];
[953;1;1;3;5;29;5;43;121;17;859;1479;3785;6641];
[956;1;1;3;7;7;61;45;109;371;833;91;153;4553];
[961;1;1;3;11;7;55;81;123;389;139;1933;891;1789];
[968;1;3;7;15;25;17;93;165;503;717;1553;1475;1627];
[976;1;1;1;13;13;63;13;225;357;571;33;4073;3795];
[988;1;1;3;11;1;31;107;145;407;961;501;2987;103];
[995;1;1;7;1;23;63;49;193;173;281;25;2465;5927];
[997;1;1;7;1;1;1;85;77;273;693;349;1239;4503];
[1007;1;1;5;11;7;61;9;121;25;357;1443;405;7827];
[1015;1;1;7;13;11;53;11;207;145;211;1703;1081;2117];
[1016;1;1;3;11;27;23;19;9;297;279;1481;2273;6387];
[1027;1;3;3;5;15;45;3;41;305;87;1815;3461;5349];
[1036;1;3;3;13;9;37;79;125;259;561;1087;4091;793];
[1039;1;3;5;7;31;55;7;145;347;929;589;2783;5905];
[1041;1;1;7;15;3;25;1;181;13;243;653;2235;7445];
[1048;1;3;5;5;17;53;65;7;33;583;1363;1313;2319];
[1053;1;3;3;7;27;47;97;201;187;321;63;1515;7917];
[1054;1;1;3;5;23;9;3;165;61;19;1789;3783;3037];
[1058;1;3;1;13;15;43;125;191;67;273;1551;2227;5253];
[1075;1;1;1;13;25;53;107;33;299;249;1475;2233;907];
[1082;1;3;5;1;23;37;85;17;207;643;665;2933;5199];
[1090;1;1;7;7;25;57;59;41;15;751;751;1749;7053];
[1109;1;3;3;1;13;25;127;93;281;613;875;2223;6345];
[1110;1;1;5;3;29;55;79;249;43;317;533;995;1991];
[1119;1;3;3;15;17;49;79;31;193;233;1437;2615;819];
[1126;1;1;5;15;25;3;123;145;377;9;455;1191;3953];
[1130;1;3;5;3;15;19;41;231;81;393;3;19;2409];
[1135;1;1;3;1;27;43;113;179;7;853;947;2731;297];
[1137;1;1;1;11;29;39;53;191;443;689;529;3329;7431];
[1140;1;3;7;5;3;29;19;67;441;113;949;2769;4169];
[1149;1;3;5;11;11;55;85;169;215;815;803;2345;3967];
[1156;1;1;7;9;5;45;111;5;419;375;303;1725;4489];
[1159;1;3;5;15;29;43;79;19;23;417;381;541;4923];
[1160;1;1;3;15;3;31;117;39;117;305;1227;1223;143];
[1165;1;1;5;9;5;47;87;239;181;353;1561;3313;1921];
[1173;1;3;3;1;3;15;53;221;441;987;1997;2529;8059];
[1178;1;1;7;11;15;57;111;139;137;883;1881;2823;5661];
[1183;1;3;5;5;21;11;5;13;27;973;587;1331;1373];
[1184;1;1;7;11;29;51;93;29;217;221;55;2477;1979];
[1189;1;3;3;13;3;11;49;75;379;371;1441;793;7633];
[1194;1;1;1;13;19;45;89;249;91;649;1695;915;5619];
[1211;1;3;1;7;7;29;1;77;313;895;519;771;295];
[1214;1;3;1;15;5;3;1;57;331;109;485;2853;6831];
[1216;1;1;1;15;17;3;35;99;245;971;839;2509;2803];
[1225;1;3;3;3;9;37;57;251;325;317;529;1313;6379];
[1231;1;1;1;15;25;59;1;119;95;15;795;2375;6463];
[1239;1;3;1;5;1;49;117;21;47;179;863;85;1669];
[1243;1;3;7;3;9;37;19;221;455;973;571;1427;817];
[1246;1;1;1;15;17;9;67;213;127;887;1299;2913;7451];
[1249;1;3;1;13;27;27;41;43;171;623;691;391;4885];
[1259;1;3;1;13;17;17;123;239;143;227;1151;519;6543];
[1273;1;3;7;5;7;63;97;39;101;555;1057;381;7891];
[1274;1;3;5;1;3;27;85;129;161;875;1945;3541;695];
[1281;1;3;3;5;21;59;25;183;35;25;987;1459;181];
[1287;1;3;5;13;1;15;127;237;349;337;1491;2383;7811];
[1294;1;3;5;5;31;5;109;51;409;733;1395;3207;6049];
[1296;1;1;5;7;13;35;113;25;263;389;299;2521;1783];
[1305;1;3;7;11;15;47;97;73;55;75;113;2695;1023];
[1306;1;3;1;1;3;13;69;211;289;483;1335;787;677];
[1318;1;1;3;3;17;7;37;77;505;137;1113;345;2975];
[1332;1;1;1;13;3;11;95;199;453;109;479;3725;239];
[1335;1;1;7;15;19;53;3;145;359;863;347;3833;3043];
[1336;1;1;7;15;25;63;127;129;125;195;155;2211;8153];
[1341;1;1;7;13;9;49;121;115;73;119;1851;727;47];
[1342;1;3;3;13;13;11;71;7;45;591;133;2407;5563];
[1362;1;1;1;13;23;29;87;89;501;71;1759;1119;687];
[1364;1;1;7;7;13;7;13;183;53;951;1877;3991;6771];
[1368;1;3;7;11;7;1;27;47;61;21;919;961;1091];
[1378;1;3;5;5;1;27;1;5;63;157;1297;1049;5893];
[1387;1;3;7;9;19;33;17;133;425;797;1721;153;119];
[1389;1;3;3;7;13;37;1;215;509;1003;61;2353;7511];
[1397;1;1;7;1;29;19;31;79;199;555;1209;1603;6089];
[1401;1;3;1;1;5;31;111;127;333;429;1863;3925;5411];
[1408;1;1;7;5;5;5;123;191;47;993;269;4051;2111];
[1418;1;1;5;15;1;9;87;5;47;463;865;1813;7357];
[1425;1;3;1;3;23;63;123;83;511;777;63;1285;4537];
[1426;1;3;3;7;27;25;31;65;441;529;1815;1893;323];
[1431;1;3;7;5;11;19;7;5;397;811;755;2883;4217];
[1435;1;3;1;13;9;21;13;7;271;539;1769;3243;5325];
[1441;1;1;7;1;31;13;47;131;181;457;1559;2663;6653];
[1444;1;3;3;7;29;55;25;203;419;91;437;1159;5691];
[1462;1;1;3;13;29;19;71;217;337;329;501;939;2205];
[1471;1;1;3;1;1;27;17;201;97;285;1269;4043;2207];
[1474;1;1;1;1;3;41;13;199;141;129;1515;3129;5969];
[1483;1;3;3;9;3;17;119;41;271;933;877;701;2197];
[1485;1;1;1;7;15;47;3;195;115;821;725;843;6071];
[1494;1;3;5;15;17;33;85;65;297;571;1123;2743;5727];
[1497;1;1;5;11;27;15;37;235;415;293;1439;2739;4171];
[1516;1;3;7;7;1;55;71;35;307;11;401;1881;933];
[1522;1;3;1;11;21;37;3;177;119;339;559;3991;3437];
[1534;1;3;3;9;17;17;97;119;301;169;157;3267;2261];
[1543;1;3;3;9;29;3;111;101;355;869;375;2609;7377];
[1552;1;3;5;9;7;21;123;99;343;693;1927;1605;4923];
[1557;1;1;3;5;13;31;99;17;75;385;1539;1553;7077];
[1558;1;3;3;5;31;35;107;11;407;1019;1317;3593;7203];
[1567;1;3;3;13;17;33;99;245;401;957;157;1949;1571];
[1568;1;3;1;11;27;15;11;109;429;307;1911;2701;861];
[1574;1;1;5;13;13;35;55;255;311;957;1803;2673;5195];
[1592;1;1;1;11;19;3;89;37;211;783;1355;3567;7135];
[1605;1;1;5;5;21;49;79;17;509;331;183;3831;855];
[1606;1;3;7;5;29;19;85;109;105;523;845;3385;7477];
[1610;1;1;1;7;25;17;125;131;53;757;253;2989;2939];
[1617;1;3;3;9;19;23;105;39;351;677;211;401;8103];
[1623;1;3;5;1;5;11;17;3;405;469;1569;2865;3133];
[1630;1;1;3;13;15;5;117;179;139;145;477;1137;2537];
[1634;1;1;7;9;5;21;9;93;211;963;1207;3343;4911];
[1640;1;1;1;9;13;43;17;53;81;793;1571;2523;3683];
[1643;1;3;3;13;25;21;5;59;489;987;1941;171;6009];
[1648;1;3;3;7;1;39;89;171;403;467;1767;3423;2791];
[1651;1;1;3;9;19;49;91;125;163;1013;89;2849;6785];
[1653;1;1;5;9;9;11;15;241;43;297;1719;1541;1821];
[1670;1;3;7;15;29;23;103;239;191;33;1043;3649;6579];
[1676;1;3;3;9;21;51;123;55;223;645;1463;4021;5891];
[1684;1;1;5;7;3;41;27;235;391;303;2021;3187;7607];
[1687;1;1;1;9;5;49;49;29;377;251;1887;1017;1301];
[1691;1;1;3;3;13;41;27;47;223;23;517;3227;6731];
[1693;1;1;7;1;31;25;47;9;511;623;2047;1263;1511];
[1698;1;1;3;15;15;23;53;1;261;595;85;241;7047];
[1709;1;3;3;11;17;5;81;73;149;781;2035;3163;4247];
[1715;1;3;7;7;29;59;49;79;397;901;1105;2191;6277];
[1722;1;3;3;11;13;27;25;173;107;73;1265;585;5251];
[1732;1;1;7;15;29;23;73;229;235;887;1469;4073;2591];
[1735;1;1;3;9;17;15;83;173;207;879;1701;1509;11];
[1747;1;1;3;5;5;37;65;161;39;421;1153;2007;5355];
[1749;1;1;7;11;23;37;5;11;9;499;17;157;5747];
[1754;1;3;7;13;25;9;49;7;39;945;1349;1759;1441];
[1777;1;1;5;3;21;15;113;81;265;837;333;3625;6133];
[1784;1;3;1;11;13;27;73;109;297;327;299;3253;6957];
[1790;1;1;3;13;19;39;123;73;65;5;1061;2187;5055];
[1795;1;1;3;1;11;31;21;115;453;857;711;495;549];
[1801;1;3;7;7;15;29;79;103;47;713;1735;3121;6321];
[1802;1;1;5;5;29;9;97;33;471;705;329;1501;1349];
[1812;1;3;3;1;21;9;111;209;71;47;491;2143;1797];
[1828;1;3;3;3;11;39;21;135;445;259;607;3811;5449];
[1831;1;1;7;9;11;25;113;251;395;317;317;91;1979];
[1837;1;3;1;9;3;21;103;133;389;943;1235;1749;7063];
[1838;1;1;3;7;1;11;5;15;497;477;479;3079;6969];
[1840;1;1;3;3;15;39;105;131;475;465;181;865;3813];
[1845;1;1;7;9;19;63;123;131;415;525;457;2471;3135];
[1863;1;3;7;15;25;35;123;45;341;805;485;4049;7065];
[1864;1;1;1;5;29;9;47;227;51;867;1873;1593;2271];
[1867;1;1;7;15;31;9;71;117;285;711;837;1435;6275];
[1870;1;3;1;1;5;19;79;25;301;415;1871;645;3251];
[1877;1;3;1;3;17;51;99;185;447;43;523;219;429];
[1881;1;3;1;13;29;13;51;93;7;995;757;3017;6865];
[1884;1;1;3;15;7;25;75;17;155;981;1231;1229;1995];
[1903;1;3;5;3;27;45;71;73;225;763;377;1139;2863];
[1917;1;1;3;1;1;39;69;113;29;371;1051;793;3749];
[1918;1;1;3;13;23;61;27;183;307;431;1345;2757;4031];
[1922;1;3;7;5;5;59;117;197;303;721;877;723;1601];
[1924;1;3;5;1;27;33;99;237;485;711;665;3077;5105];
[1928;1;1;3;1;13;9;103;201;23;951;2029;165;2093];
[1931;1;3;5;13;5;29;55;85;221;677;611;3613;4567];
[1951;1;1;1;1;7;61;9;233;261;561;953;4023;2443];
[1952;1;3;3;13;1;17;103;71;223;213;833;1747;6999];
[1957;1;3;5;15;25;53;57;187;25;695;1207;4089;2877];
[1958;1;1;7;1;7;31;87;129;493;519;1555;1155;4637];
[1964;1;1;1;15;21;17;23;29;19;255;927;1791;3093];
[1967;1;1;3;9;17;33;95;129;175;461;287;2633;2325];
[1970;1;3;5;7;23;19;63;209;249;583;1373;2039;2225];
[1972;1;3;3;5;5;19;79;241;459;355;1455;3313;3639];
[1994;1;1;7;9;21;41;97;119;129;769;1541;3495;7741];
[2002;1;1;7;11;9;29;35;255;141;937;1763;41;1393];
[2007;1;3;7;1;13;51;61;157;177;847;1829;3539;285];
[2008;1;1;1;15;21;13;9;55;397;19;1495;1255;7235];
[2023;1;1;7;7;25;37;53;237;319;197;269;1205;1485];
[2030;1;1;5;15;23;17;35;247;323;807;233;3681;4407];
[2035;1;1;3;7;9;59;85;105;493;763;1639;391;1451];
[2038;1;3;3;9;15;33;5;253;129;625;1527;2793;6057];
[2042;1;3;1;1;7;47;21;161;235;83;397;3563;5953];
[2047;1;3;7;11;3;41;25;117;375;779;1297;3715;8117];
[2051;1;1;3;7;31;19;103;173;475;189;2035;2921;1107];
[2058;1;1;7;3;25;7;93;255;307;113;1893;2233;6919];
[2060;1;3;5;15;9;57;79;143;165;5;1389;193;693];
[2071;1;3;5;1;29;45;91;49;189;461;439;1283;7835];
[2084;1;1;3;13;11;61;41;231;373;695;395;915;5393];
[2087;1;3;7;11;5;51;67;53;483;95;1943;247;5653];
[2099;1;3;7;5;5;57;45;235;137;793;1069;1661;1557];
[2108;1;3;5;3;25;55;103;177;81;861;1151;143;7655];
[2111;1;1;3;1;21;41;67;131;253;431;1269;3181;3429];
[2120;1;3;1;1;21;7;77;221;257;663;71;2949;2481];
[2128;1;3;5;3;3;23;45;107;299;739;1013;3;3165];
[2138;1;1;5;1;3;37;109;37;243;983;1221;1691;3869];
[2143;1;1;5;5;31;7;5;193;397;867;1495;3435;7441];
[2144;1;1;1;1;17;59;97;233;389;597;1013;1631;483];
[2153;1;1;1;11;7;41;107;53;111;125;1513;1921;7647];
[2156;1;3;3;3;31;29;117;3;365;971;1139;2123;5913];
[2162;1;1;1;13;23;3;1;167;475;639;1811;3841;3081];
[2167;1;1;5;3;5;47;65;123;275;783;95;119;7591];
[2178;1;3;1;15;13;33;93;237;467;431;705;4013;4035];
[2183;1;3;5;1;19;7;101;231;155;737;1381;3343;2051];
[2202;1;1;5;9;15;49;45;163;433;765;2031;201;2589];
[2211;1;3;7;9;19;41;31;89;93;623;105;745;4409];
[2214;1;1;5;1;11;45;127;85;389;439;829;477;7965];
[2223;1;3;3;15;13;41;1;207;435;585;311;1725;2737];
[2225;1;3;3;3;13;49;21;31;197;799;1411;2959;7133];
[2232;1;3;1;3;7;43;9;141;133;579;1059;93;957];
[2237;1;3;7;1;15;51;23;213;381;851;699;2261;3419];
[2257;1;3;5;9;25;35;67;141;35;409;1423;365;1645];
[2260;1;3;3;11;15;33;27;181;93;87;1761;3511;1353];
[2267;1;3;5;3;25;63;111;137;321;819;705;1547;7271];
[2274;1;3;1;1;5;57;99;59;411;757;1371;3953;3695];
[2276;1;3;5;11;11;21;25;147;239;455;709;953;7175];
[2285;1;3;3;15;5;53;91;205;341;63;723;1565;7135];
[2288;1;1;7;15;11;21;99;79;63;593;2007;3629;5271];
[2293;1;3;3;1;9;21;45;175;453;435;1855;2649;6959];
[2294;1;1;3;15;15;33;121;121;251;431;1127;3305;4199];
[2297;1;1;1;9;31;15;71;29;345;391;1159;2809;345];
[2303;1;3;7;1;23;29;95;151;327;727;647;1623;2971];
[2308;1;1;7;7;9;29;79;91;127;909;1293;1315;5315];
[2311;1;1;5;11;13;37;89;73;149;477;1909;3343;525];
[2318;1;3;5;7;5;59;55;255;223;459;2027;237;4205];
[2323;1;1;1;7;27;11;95;65;325;835;907;3801;3787];
[2332;1;1;1;11;27;33;99;175;51;913;331;1851;4133];
[2341;1;3;5;5;13;37;31;99;273;409;1827;3845;5491];
[2345;1;1;3;7;23;19;107;85;283;523;509;451;421];
[2348;1;3;5;7;13;9;51;81;87;619;61;2803;5271];
[2354;1;1;1;15;9;45;35;219;401;271;953;649;6847];
[2368;1;1;7;11;9;45;17;219;169;837;1483;1605;2901];
[2377;1;1;7;7;21;43;37;33;291;359;71;2899;7037];
[2380;1;3;3;13;31;53;37;15;149;949;551;3445;5455];
[2383;1;3;1;5;19;45;81;223;193;439;2047;3879;789];
[2388;1;1;7;3;11;63;35;61;255;563;459;2991;3359];
[2395;1;1;5;9;13;49;47;185;239;221;1533;3635;2045];
[2397;1;3;7;3;25;37;127;223;51;357;483;3837;6873];
[2401;1;1;7;9;31;37;113;31;387;833;1243;1543;5535];
[2411;1;3;1;9;23;59;119;221;73;185;2007;2885;2563];
[2413;1;1;1;13;7;33;53;179;67;185;1541;1807;4659];
[2419;1;3;1;11;31;37;23;215;269;357;207;645;4219];
[2435;1;3;3;13;19;27;107;55;91;71;1695;1815;89];
[2442;1;1;3;15;3;19;35;247;49;529;1523;3317;6151];
[2455;1;1;7;7;23;25;107;139;483;503;1277;243;7879];
[2472;1;3;3;13;3;15;11;197;135;839;985;275;5527];
[2478;1;3;5;3;25;47;95;21;113;307;1001;3065;295];
[2490;1;1;3;9;19;19;99;213;363;449;735;2851;2521];
[2507;1;1;3;9;5;49;63;61;157;857;497;2801;6987];
[2509;1;1;1;9;1;41;109;119;499;939;867;3675;8023];
[2517;1;3;1;1;13;33;109;123;289;3;1271;2773;4265];
[2524;1;3;1;11;9;57;83;221;95;43;1189;457;7133];
[2528;1;1;7;3;11;49;33;219;229;289;685;3359;4495];
[2531;1;3;1;3;19;43;67;193;41;771;407;81;3891];
[2538;1;1;7;11;5;29;51;175;297;539;1;2245;6439];
[2545;1;3;7;15;21;33;117;183;511;489;1283;3281;5979];
[2546;1;3;7;5;9;3;125;147;359;549;369;3049;2405];
[2555;1;3;5;7;19;5;65;97;483;377;1523;1457;2995];
[2557;1;1;5;1;11;21;41;113;277;131;1475;1043;2367];
[2564;1;3;3;1;15;17;101;69;443;865;817;1421;5231];
[2573;1;1;3;3;3;55;95;99;75;195;1929;3931;5855];
[2579;1;3;1;3;19;23;93;213;241;551;1307;585;7729];
[2592;1;3;1;11;23;15;53;249;467;519;95;741;409];
[2598;1;1;1;15;29;37;43;203;233;877;77;1933;2729];
[2607;1;3;7;11;27;39;43;161;255;15;1463;833;495];
[2612;1;1;7;11;3;53;81;67;375;823;1903;3061;395];
[2619;1;1;1;1;15;37;93;233;247;501;1321;3275;5409];
[2621;1;3;3;7;7;11;5;105;139;983;1239;531;3881];
[2627;1;1;5;3;19;49;107;227;361;101;355;2649;7383];
[2633;1;1;7;5;25;41;101;121;209;293;1937;2259;5557];
[2636;1;1;3;7;7;1;9;13;463;1019;995;3159;107];
[2642;1;3;5;11;5;35;127;97;261;789;807;807;6257];
[2654;1;1;7;5;11;13;45;91;417;101;1973;3645;2107];
[2660;1;1;3;7;5;63;57;49;203;157;115;1393;8117];
[2669;1;3;5;5;3;43;15;155;127;489;1165;3701;4867];
[2675;1;1;7;7;29;29;69;215;415;367;371;1901;6075];
[2684;1;1;1;3;11;33;89;149;433;705;1437;1597;505];
[2694;1;3;5;1;13;37;19;119;5;581;2037;1633;2099];
[2703;1;3;7;13;5;49;103;245;215;515;133;2007;1933];
[2706;1;3;1;9;1;3;25;197;253;387;1683;2267;221];
[2712;1;3;5;15;21;9;73;201;405;999;437;3877;6045];
[2715;1;1;3;1;31;55;25;83;421;395;1807;2129;7797];
[2722;1;1;3;1;23;21;121;183;125;347;143;3685;4317];
[2727;1;3;3;3;17;45;17;223;267;795;1815;1309;155];
[2734;1;1;1;15;17;59;5;133;15;715;1503;153;2887];
[2742;1;1;1;1;27;13;119;77;243;995;1851;3719;4695];
[2745;1;3;1;5;31;49;43;165;49;609;1265;1141;505];
[2751;1;1;7;13;11;63;21;253;229;585;1543;3719;4141];
[2766;1;3;7;11;23;27;17;131;295;895;1493;1411;3247];
[2768;1;1;5;9;29;7;97;15;113;445;859;1483;1121];
[2780;1;3;1;9;13;49;99;107;323;201;681;3071;5281];
[2790;1;1;1;15;9;19;61;161;7;87;587;2199;2811];
[2794;1;3;3;15;15;19;95;45;299;829;981;3479;487];
[2796;1;1;1;9;3;37;7;19;227;13;397;513;1257];
[2801;1;1;5;15;15;13;17;111;135;929;1145;811;1801];
[2804;1;3;1;3;27;57;31;19;279;103;693;631;3409];
[2807;1;1;1;1;15;13;67;83;23;799;1735;2063;3363];
[2816;1;3;3;7;3;1;61;31;41;533;2025;4067;6963];
[2821;1;1;5;7;17;27;81;79;107;205;29;97;4883];
[2831;1;1;1;5;19;49;91;201;283;949;651;3819;5073];
[2834;1;1;7;9;11;13;73;197;37;219;1931;3369;6017];
[2839;1;1;7;15;11;7;75;205;7;819;399;661;6487];
[2845;1;3;3;3;27;37;95;41;307;165;1077;3485;563];
[2852;1;3;5;3;21;49;57;179;109;627;1789;431;2941];
[2856;1;1;7;5;11;19;43;137;149;679;1543;245;1381];
[2861;1;3;5;5;15;3;69;81;135;159;1363;3401;6355];
[2873;1;3;5;1;9;61;49;53;319;25;1647;1297;615];
[2874;1;3;5;11;31;43;9;101;71;919;335;3147;5823];
[2888;1;3;1;1;15;5;29;109;511;945;867;3677;6915];
[2893;1;3;3;15;17;49;91;111;215;29;1879;97;2505];
[2894;1;3;1;13;19;61;11;111;163;777;533;1113;5339];
[2902;1;1;7;9;17;55;117;91;455;289;557;913;4455];
[2917;1;3;1;7;25;19;123;37;1;277;717;2965;4469];
[2921;1;3;7;3;19;23;87;235;209;457;2041;2893;1805];
[2922;1;3;3;5;5;43;23;61;351;791;59;2009;2909];
[2929;1;1;3;7;5;1;27;231;385;257;1261;2701;1807];
[2935;1;3;1;1;27;19;87;253;131;685;1743;3983;2651];
[2946;1;3;7;11;21;17;11;81;191;641;1821;3005;7251];
[2951;1;3;3;5;15;31;41;213;55;931;1953;49;6037];
[2957;1;1;7;15;7;27;65;223;113;79;1875;911;5445];
[2960;1;3;7;7;23;55;51;167;495;25;1585;3447;799];
[2966;1;1;3;7;27;15;95;193;337;415;975;3085;967];
[2972;1;1;7;15;19;7;93;41;433;551;401;3169;3971];
[2976;1;1;7;11;13;15;53;69;433;59;1117;3359;6231];
[2979;1;1;7;3;23;5;115;201;225;109;1903;3897;6265];
[2985;1;1;1;11;17;1;39;143;361;659;1105;23;4923];
[3000;1;1;1;9;27;57;85;227;261;119;1881;3965;6999];
[3003;1;3;7;7;15;7;107;17;315;49;1591;905;7789];
[3013;1;3;1;7;29;3;47;237;157;769;839;3199;3195];
[3018;1;1;3;15;25;39;63;15;111;857;881;1505;7671];
[3020;1;1;7;1;3;35;41;215;99;895;1025;1483;4707];
[3025;1;3;5;1;1;31;25;247;113;841;397;1825;6969];
[3042;1;1;3;5;19;41;49;243;225;973;241;175;1041];
[3047;1;1;1;7;15;15;105;141;83;75;1675;3523;5219];
[3048;1;1;7;5;13;27;47;199;445;841;959;1157;2209];
[3051;1;3;5;15;23;31;31;81;85;33;785;2639;7799];
[3054;1;1;5;13;21;3;47;99;235;943;1731;2467;7891];
[3056;1;1;1;3;17;53;85;219;73;131;1339;875;1191];
[3065;1;1;5;7;17;63;113;7;185;557;749;3563;4973];
[3073;1;3;3;15;15;21;43;111;155;689;345;423;3597];
[3074;1;1;5;1;15;29;93;5;361;713;695;3937;425];
[3083;1;3;7;7;13;41;115;175;315;937;123;2841;4457];
[3086;1;1;3;11;25;5;103;53;423;811;657;399;7257];
[3091;1;1;1;1;1;13;101;211;383;325;97;1703;4429];
[3097;1;3;7;9;31;45;83;157;509;701;841;1105;3643];
[3109;1;1;1;7;1;9;69;17;129;281;1161;2945;7693];
[3116;1;3;7;1;11;29;51;143;77;433;1723;2317;5641];
[3124;1;1;1;1;21;43;13;67;177;505;1629;1267;4885];
[3128;1;1;3;11;27;63;111;47;233;781;453;1679;3209];
[3153;1;1;3;13;29;27;119;141;493;971;461;1159;633];
[3160;1;1;3;15;23;5;79;215;163;149;1805;2399;61];
[3165;1;3;5;13;19;5;1;39;409;561;709;829;1357];
[3172;1;3;3;13;19;43;9;177;449;447;73;2107;5669];
[3175;1;3;5;1;23;13;63;109;203;593;829;4017;6881];
[3184;1;1;5;7;3;9;53;175;391;169;1283;3793;4451];
[3193;1;1;5;7;29;43;9;5;209;77;927;2941;8145];
[3196;1;3;5;15;17;49;5;143;131;771;1685;925;2175];
[3200;1;1;3;11;27;27;27;159;161;1015;1587;4049;1983];
[3203;1;3;1;3;23;57;119;67;481;577;389;3319;5325];
[3205;1;3;5;1;19;39;87;61;329;657;1773;31;1707];
[3209;1;1;3;1;5;25;15;241;131;815;1751;3029;8039];
[3224;1;3;3;13;27;13;77;87;437;57;621;1031;7891];
[3239;1;3;1;13;23;51;117;37;331;745;605;3179;4713];
[3251;1;1;5;5;19;17;99;167;87;721;737;789;2165];
[3254;1;3;5;13;1;51;119;211;165;299;1327;3053;3343];
[3265;1;1;5;15;29;45;17;129;67;345;1553;2705;7369];
[3266;1;1;1;9;23;7;13;209;7;407;317;3077;7287];
[3275;1;1;1;5;9;59;89;3;487;451;505;2499;7563];
[3280;1;3;1;7;21;1;21;203;101;417;1389;2751;1397];
[3283;1;3;7;13;7;31;3;247;349;485;1259;549;6321];
[3286;1;1;7;7;27;33;107;197;293;729;1753;2571;103];
[3301;1;3;5;9;25;35;5;253;137;213;2041;3387;1809];
[3302;1;1;7;13;15;35;67;83;295;175;839;2831;839];
[3305;1;3;3;11;3;17;55;141;247;991;117;3799;1221];
[3319;1;1;5;1;11;37;87;233;457;653;899;2933;3105];
[3323;1;1;3;15;3;31;67;167;437;9;651;1109;1139];
[3326;1;1;3;1;7;63;67;17;11;883;1855;1941;4751];
[3331;1;3;7;9;19;33;113;117;495;39;1795;2561;5519];
[3348;1;1;7;5;1;3;103;37;201;223;1101;877;6483];
[3351;1;1;5;9;29;49;51;33;439;917;861;1321;2135];
[3358;1;1;3;3;1;5;17;93;217;619;613;1357;6095];
[3368;1;3;1;11;3;21;5;41;15;175;843;2937;6849];
[3374;1;3;3;7;9;57;55;127;79;287;445;2205;7989];
[3376;1;1;7;13;23;17;93;129;157;135;1747;1813;4183];
[3379;1;1;1;5;31;59;99;33;425;329;887;367;1761];
[3385;1;1;7;9;17;53;77;139;435;387;49;3649;1773];
[3386;1;3;3;15;21;57;45;161;331;719;273;3479;4173];
[3396;1;1;3;9;3;3;105;201;373;877;919;1263;6649];
[3420;1;3;1;15;13;43;13;99;73;163;353;3569;5601];
[3423;1;3;7;3;5;9;69;177;449;47;781;1125;4245];
[3430;1;1;1;5;3;45;1;123;409;903;205;2057;7637];
[3433;1;3;5;9;19;47;87;135;481;799;101;3409;2241];
[3434;1;3;1;13;3;25;15;27;181;967;669;2577;7249];
[3439;1;1;7;3;31;5;103;53;1;911;1209;3697;6685];
[3442;1;1;3;1;5;5;49;135;281;747;761;2973;7963];
[3444;1;3;3;5;19;61;125;199;299;515;1365;369;7027];
[3453;1;3;1;7;5;41;63;229;283;571;147;447;657];
[3464;1;3;1;11;5;15;55;7;259;61;27;1429;5631];
[3477;1;1;5;1;3;53;51;253;155;553;1293;3735;6567];
[3478;1;3;5;9;5;41;21;159;101;785;1981;3799;7693];
[3482;1;3;7;7;9;3;95;105;129;213;1215;1027;5699];
[3487;1;1;3;3;29;13;9;253;449;321;341;2879;171];
[3497;1;3;7;11;21;11;75;35;43;965;675;2217;7175];
[3500;1;1;5;15;31;5;29;137;311;751;47;1367;5921];
[3505;1;1;3;15;17;1;45;69;55;649;835;569;7615];
[3506;1;3;1;13;31;7;23;15;391;145;1845;1825;1403];
[3511;1;1;3;15;5;9;79;77;105;399;1933;2503;4781];
[3512;1;3;1;3;17;47;19;13;107;475;759;2933;3761];
[3515;1;1;7;11;3;7;121;209;397;877;293;847;7039];
[3525;1;1;1;15;29;45;5;109;335;461;143;931;4045];
[3532;1;3;1;7;11;57;73;89;201;173;803;3953;5205];
[3538;1;1;5;11;11;33;37;29;263;1019;657;1453;7807];
[3540;1;3;3;13;31;25;37;47;261;607;1703;2603;417];
[3547;1;1;1;1;31;61;45;115;275;239;1989;1897;4329];
[3549;1;3;5;3;31;3;11;173;335;579;1193;2219;7875];
[3560;1;1;7;9;29;45;13;67;399;177;1293;3865;2225];
[3571;1;1;7;11;11;51;121;227;469;905;929;2635;4165];
[3577;1;3;7;9;13;39;55;167;23;147;1603;2083;4645];
[3583;1;1;3;15;27;53;11;155;157;629;259;3009;4605];
[3590;1;3;1;7;15;47;51;1;259;603;887;2833;6581];
[3593;1;3;5;3;1;47;91;43;361;571;29;1453;4269];
[3594;1;1;3;9;11;51;55;23;415;277;1423;3475;1527];
[3599;1;1;3;11;29;49;101;75;299;709;805;4037;4389];
[3601;1;1;7;3;23;1;37;51;379;771;1301;3717;6673];
[3602;1;1;5;3;23;11;125;177;375;665;951;1577;2603];
[3613;1;1;1;1;1;5;71;255;21;459;467;2083;5415];
[3623;1;1;5;13;23;29;109;157;363;971;549;647;1177];
[3630;1;1;3;9;7;15;101;3;365;213;745;1155;6099];
[3638;1;3;5;15;15;19;47;179;303;521;1279;219;2415];
[3649;1;3;3;13;27;11;83;165;369;989;261;3933;4809];
[3655;1;1;3;11;31;59;1;185;53;703;1471;2935;1107];
[3662;1;3;3;7;25;3;81;27;93;521;433;2859;5861];
[3667;1;3;3;11;29;15;49;167;315;927;543;3473;4307];
[3669;1;3;1;3;29;33;53;15;183;691;703;1311;3393];
[3676;1;3;5;13;23;49;3;11;1;357;1407;415;7211];
[3683;1;3;7;15;1;25;91;113;323;371;189;925;1181];
[3700;1;3;3;3;17;59;119;199;115;223;877;2193;193];
[3709;1;1;1;5;5;35;31;59;437;411;37;2405;3797];
[3710;1;3;1;13;9;37;1;241;59;157;1785;1223;563];
[3713;1;3;5;13;3;21;25;95;15;745;85;701;5361];
[3723;1;3;7;1;31;33;111;195;35;913;2013;2951;6611];
[3725;1;3;5;1;19;3;75;119;111;409;951;1457;4957];
[3728;1;3;1;15;19;59;3;155;237;657;1967;3323;6235];
[3734;1;1;5;1;3;19;45;105;377;881;167;2255;4483];
[3737;1;1;7;7;13;13;99;89;201;279;161;2483;6001];
[3738;1;1;7;3;13;17;97;129;137;377;1519;183;3725];
[3744;1;1;7;9;9;5;45;135;115;181;1685;3505;4387];
[3750;1;1;1;1;19;35;69;113;305;419;949;2969;247];
[3762;1;1;5;13;23;61;13;139;501;811;67;1501;6493];
[3764;1;1;3;13;15;41;27;217;293;13;145;2631;6991];
[3774;1;3;3;13;15;37;71;123;285;49;627;1283;5993];
[3776;1;3;3;11;9;25;11;1;203;353;1347;1999;2799];
[3786;1;3;5;1;7;49;101;231;499;63;1977;2207;7829];
[3800;1;1;7;1;17;15;115;139;381;943;623;4037;2971];
[3803;1;1;3;5;13;55;23;87;139;795;1669;1375;1185];
[3809;1;3;3;5;5;45;97;253;241;333;645;555;7867];
[3816;1;3;5;1;1;1;89;27;407;509;1433;609;2355];
[3821;1;3;7;1;27;29;5;157;495;811;1293;1143;827];
[3827;1;1;3;3;25;49;127;111;191;3;845;1383;2521];
[3829;1;1;5;7;5;51;101;155;237;461;831;3091;3851];
[3836;1;3;7;1;29;35;105;91;285;705;131;395;6011];
[3842;1;3;5;3;13;21;83;173;221;827;1775;1931;6727];
[3844;1;1;3;5;3;25;95;115;205;569;1447;933;6425];
[3847;1;1;7;9;31;3;17;175;145;447;1321;1069;6527];
[3853;1;1;3;3;23;1;79;51;421;419;873;3939;1801];
[3861;1;1;5;1;3;39;15;85;169;669;919;397;5579];
[3871;1;3;5;1;21;61;87;217;251;619;1091;4009;229];
[3872;1;1;1;11;23;55;85;121;363;867;315;447;3373];
[3881;1;3;3;13;29;19;89;85;137;469;1873;2765;3975];
[3890;1;3;7;13;19;63;61;77;67;361;11;1787;4703];
[3892;1;1;3;11;7;15;127;105;179;857;1671;3647;3389];
[3909;1;1;1;7;19;21;99;161;499;519;1287;2973;479];
[3921;1;1;3;13;29;51;95;251;55;519;1955;2881;5951];
[3934;1;1;3;11;23;63;121;237;175;311;701;1539;2383];
[3938;1;1;7;5;5;45;73;97;5;153;715;2037;3353];
[3947;1;1;1;3;13;7;67;173;425;843;1497;2729;5193];
[3950;1;1;7;1;23;3;119;11;77;141;1905;2269;4269];
[3952;1;1;7;15;1;23;79;251;439;603;405;2449;6383];
[3964;1;3;7;11;29;27;47;255;47;661;1967;1007;3689];
[3974;1;3;7;5;19;39;35;115;417;373;291;329;603];
[3980;1;3;1;9;11;33;27;193;207;423;1311;1369;7307];
[3983;1;1;3;11;9;29;83;17;497;493;329;3141;5935];
[3986;1;3;1;5;31;51;29;171;51;493;1621;3501;4091];
[3995;1;1;5;9;21;43;105;207;245;363;1191;699;1139];
[3998;1;1;3;11;19;5;81;119;247;169;1337;45;6565];
[4001;1;3;1;11;3;51;3;101;159;11;253;299;5043];
[4002;1;3;1;5;11;53;85;39;57;645;2007;1039;3627];
[4004;1;3;5;3;17;61;97;165;415;357;283;601;5505];
[4008;1;3;7;3;9;51;49;85;3;227;137;309;243];
[4011;1;1;5;3;11;59;11;131;409;703;455;123;6727];
[4016;1;3;7;9;25;49;21;171;287;379;667;313;713];
[4033;1;1;3;9;7;35;47;3;367;581;1627;1665;3905];
[4036;1;3;1;1;29;57;35;55;255;653;823;2197;6179];
[4040;1;3;7;15;17;15;117;83;359;163;115;2999;5373];
[4053;1;1;5;3;21;61;35;97;71;687;207;2917;1049];
[4058;1;1;1;15;13;15;125;81;263;661;417;3243;1669];
[4081;1;1;7;3;3;19;111;193;443;339;659;1211;1557];
[4091;1;3;1;3;27;3;3;173;391;213;803;3281;3207];
[4094;1;1;5;15;19;1;7;211;157;603;403;1387;1583];
[21;1;3;5;13;17;53;125;13;339;723;521;413;5801;10451];
[28;1;1;3;13;29;9;99;77;141;609;1533;983;2039;51];
[41;1;1;3;11;21;55;5;51;423;309;525;3715;3025;15055];
[47;1;1;3;7;9;21;77;171;239;341;1653;1093;2273;10723];
[61;1;1;1;15;31;15;23;35;317;869;1917;1415;4313;3687];
[84;1;1;1;5;21;25;99;167;439;453;473;431;6665;4989];
[87;1;1;7;9;31;47;81;83;345;43;1363;1885;3155;3185];
[93;1;3;7;1;31;17;61;185;341;129;547;717;2071;9991];
[94;1;3;1;13;23;61;77;217;455;77;1263;1601;3501;14953];
[103;1;1;7;7;19;19;1;229;431;943;1069;1949;1289;15729];
[117;1;1;3;5;1;35;97;251;487;459;1265;1739;165;10365];
[121;1;3;5;3;11;25;79;175;383;545;187;197;4329;3363];
[134;1;1;3;3;29;9;63;55;175;277;431;2549;2629;6409];
[137;1;1;3;15;17;21;79;139;99;135;1763;1805;3471;5439];
[157;1;1;3;9;9;15;35;119;289;835;769;3843;4119;4421];
[161;1;1;1;5;19;19;67;199;307;815;1367;1231;3927;6593];
[205;1;1;3;1;29;51;121;209;431;47;1115;907;2535;9755];
[206;1;1;3;5;17;1;5;119;121;223;1719;1291;3947;15891];
[211;1;3;1;15;29;25;3;131;373;307;645;3513;1289;1987];
[214;1;3;3;11;29;45;105;179;331;465;891;1315;403;3057];
[218;1;1;5;13;17;59;77;127;485;855;1147;3093;891;9869];
[234;1;1;1;7;23;27;31;203;285;463;827;685;1349;15051];
[236;1;1;1;5;29;5;107;195;31;425;19;2865;3869;11153];
[248;1;1;7;5;7;47;1;73;307;347;393;2205;7709;15121];
[262;1;1;1;13;15;61;25;131;113;369;1995;2527;4475;1745];
[299;1;1;1;1;31;63;21;253;307;281;859;3319;6721;2891];
[304;1;1;3;11;1;17;5;183;301;979;651;1685;6343;10067];
[319;1;1;5;15;23;45;99;145;263;507;1381;3425;2215;1815];
[322;1;3;1;5;11;63;85;203;411;881;1369;1237;4657;6541];
[334;1;3;3;13;17;53;121;201;269;983;215;3187;7121;6111];
[355;1;3;5;15;15;5;13;143;3;313;1677;1093;3295;3387];
[357;1;1;3;13;3;23;73;17;257;965;239;1271;2803;7327];
[358;1;3;5;13;9;57;115;37;41;467;135;1403;3811;4741];
[369;1;3;7;15;9;33;39;203;351;367;1355;1403;3685;4757];
[372;1;3;5;11;31;3;113;123;203;421;1821;3151;2375;4419];
[375;1;1;1;7;21;63;99;23;133;79;991;1755;4989;4709];
[388;1;3;5;1;25;63;113;239;49;443;173;1261;3201;10599];
[400;1;3;3;13;3;25;101;169;23;585;327;1327;111;10059];
[415;1;3;3;5;19;1;33;89;437;213;1933;1741;2603;5625];
[446;1;3;1;3;15;15;25;139;73;335;237;2461;3101;14951];
[451;1;3;5;1;31;15;31;187;177;659;1339;3767;4975;7123];
[458;1;3;1;3;25;19;47;89;107;107;649;683;3123;11085];
[471;1;3;7;9;15;21;101;25;11;625;1555;675;3893;5805];
[484;1;1;1;5;7;49;123;21;439;369;207;535;4619;14665];
[501;1;1;5;7;1;25;103;185;99;239;1093;1561;6177;4039];
[502;1;3;7;5;29;21;43;103;343;973;1561;2975;7467;7947];
[517;1;1;7;9;19;3;13;23;461;813;1191;985;559;3317];
[545;1;3;5;5;27;31;79;15;365;901;1949;117;3619;13311];
[569;1;3;5;7;5;33;67;199;425;189;1691;3099;815;1677];
[617;1;1;7;11;13;29;73;137;265;601;445;3893;2511;8047];
[618;1;1;3;1;13;5;57;101;357;391;335;601;1359;1065];
[623;1;1;1;1;25;57;27;115;31;873;611;2125;447;13585];
[625;1;3;3;13;27;17;73;11;359;33;1153;271;4537;15141];
[637;1;3;7;3;11;63;103;61;59;629;1629;3279;3919;3177];
[661;1;1;5;15;3;63;85;193;381;165;175;3247;2501;4209];
[668;1;1;5;15;1;33;59;219;487;193;1557;703;2907;7953];
[684;1;1;7;3;9;3;105;95;389;991;21;3841;6983;285];
[695;1;1;1;1;1;31;25;137;117;67;1283;1963;6591;15541];
[716;1;3;5;11;7;15;127;89;453;777;1827;2311;7661;11833];
[719;1;1;7;13;19;29;79;165;223;453;2039;3961;6467;5481];
[722;1;3;3;7;17;41;43;157;323;3;1001;2109;4513;12127];
[731;1;1;5;9;31;57;3;217;113;271;1663;1367;6949;8165];
[738;1;1;7;15;27;35;81;235;61;205;525;311;6357;2527];
[747;1;3;1;9;19;29;71;207;321;1011;1615;1333;3459;6681];
[755;1;3;7;7;3;57;41;19;25;397;565;1837;7625;11813];
[761;1;3;3;1;27;47;31;79;441;961;1255;423;2405;913];
[767;1;3;3;13;3;29;69;227;85;201;395;3199;3869;13099];
[775;1;3;3;7;29;61;99;7;27;227;945;873;475;4363];
[782;1;3;5;13;19;21;57;149;217;443;565;453;5487;10981];
[787;1;3;3;1;9;27;47;191;35;395;1429;4079;6871;8013];
[794;1;3;5;15;5;43;9;79;279;563;1125;985;8117;4099];
[803;1;3;5;1;13;41;21;117;287;667;701;1483;8167;13283];
[812;1;3;1;3;15;15;59;5;383;509;1657;3977;7697;10941];
[817;1;3;1;1;17;29;19;23;377;45;981;1631;3557;6749];
[824;1;3;3;9;9;51;9;193;345;361;1679;3333;713;5387];
[829;1;3;5;5;17;45;97;17;385;349;105;2245;7295;14393];
[850;1;3;7;3;19;51;35;99;79;301;1563;399;5879;14675];
[866;1;1;7;15;13;53;55;203;417;161;2033;1845;6763;3585];
[871;1;1;3;3;7;23;11;43;241;309;1453;3147;2619;3163];
[877;1;1;1;11;17;1;17;137;443;465;993;3217;7879;14607];
[920;1;1;7;13;29;49;71;217;291;793;135;21;2503;11091];
[935;1;3;1;11;31;51;121;227;377;157;1457;1317;5625;6217];
[959;1;1;3;7;23;61;47;93;79;617;1805;2403;5513;16335];
[979;1;3;5;11;23;25;41;11;495;587;1223;3107;1469;15223];
[992;1;3;7;7;9;1;1;49;23;723;1761;3717;7375;10875];
[1010;1;3;3;11;25;37;57;63;309;603;183;285;1663;5627];
[1012;1;3;7;11;19;25;25;201;391;257;529;1645;1;15111];
[1015;1;3;3;9;11;43;91;65;5;959;301;1015;6343;3453];
[1033;1;3;3;11;17;17;103;37;77;973;575;439;49;3639];
[1036;1;1;5;7;1;15;107;237;231;967;923;1101;6715;1713];
[1053;1;3;1;15;9;33;29;211;245;601;1783;887;1209;11785];
[1057;1;3;3;7;21;43;27;89;27;141;865;367;1379;4063];
[1069;1;3;7;7;15;17;15;15;131;649;1955;3289;3983;10689];
[1072;1;3;1;5;17;7;125;69;359;981;1345;933;5281;7113];
[1075;1;1;5;9;17;7;41;207;497;1015;493;891;3563;3541];
[1087;1;3;5;11;27;3;47;31;303;1007;2047;2203;6257;8369];
[1089;1;1;1;15;25;15;89;51;217;357;1133;1917;213;3365];
[1137;1;1;5;13;29;23;123;207;429;805;819;2357;6313;11019];
[1166;1;1;3;7;19;15;41;73;279;11;1089;3107;7737;15953];
[1174;1;3;5;7;7;15;41;73;493;457;1731;1139;2513;12373];
[1180;1;3;5;9;17;5;55;155;173;1005;529;3175;7667;4747];
[1204;1;1;7;7;5;21;105;31;205;847;1033;3167;2347;8499];
[1211;1;3;5;3;11;17;59;189;179;1007;33;3287;4813;8177];
[1219;1;3;3;13;27;47;47;171;413;875;1081;1259;7139;8645];
[1236;1;3;5;7;25;21;51;29;361;293;51;1119;1453;5283];
[1255;1;3;7;7;29;55;103;199;511;341;1957;3987;2855;1279];
[1264;1;1;1;9;23;51;61;63;391;37;55;3771;6517;15913];
[1306;1;1;1;9;3;19;13;147;453;855;1321;189;5043;11215];
[1330;1;3;3;13;23;3;87;155;401;981;607;3413;995;6473];
[1341;1;3;1;9;29;47;95;123;421;353;1867;2609;2569;14083];
[1344;1;1;5;13;25;39;29;111;125;545;1493;2371;6361;6307];
[1347;1;3;3;11;13;31;87;75;27;393;921;3655;3343;16349];
[1349;1;1;5;9;19;19;7;129;223;715;433;1627;4463;2951];
[1361;1;1;7;1;31;13;49;33;89;43;1529;725;3809;3427];
[1380;1;1;7;3;1;27;45;9;309;875;659;2661;553;7069];
[1390;1;1;7;15;13;37;61;19;125;683;1227;2255;1455;9339];
[1404;1;3;5;7;19;7;71;21;465;645;1885;873;7405;1913];
[1435;1;3;1;11;11;35;79;61;79;57;1603;3719;6323;16371];
[1444;1;1;7;1;29;57;85;21;205;37;2045;683;4901;8223];
[1453;1;1;5;13;31;31;65;131;259;535;967;3943;2605;2089];
[1461;1;1;7;9;27;61;39;243;207;41;1909;3279;1331;4635];
[1462;1;3;3;5;11;63;105;19;169;95;773;3175;1869;1797];
[1465;1;3;3;15;13;33;107;197;153;795;1477;105;4965;991];
[1468;1;3;7;11;11;37;23;149;197;3;1035;3857;553;1059];
[1474;1;3;1;3;17;29;89;189;193;59;1477;3517;2565;7739];
[1483;1;1;1;9;23;3;25;163;469;305;1791;3393;6141;8119];
[1488;1;3;5;7;7;41;19;101;179;487;1071;2761;8043;5103];
[1493;1;1;7;9;1;21;101;103;349;85;1841;1033;4473;3563];
[1500;1;1;3;13;23;61;39;27;479;13;45;1371;7897;10637];
[1509;1;1;5;9;17;61;71;55;355;99;1695;3053;839;959];
[1510;1;1;3;1;7;27;87;221;327;241;461;3177;5933;8299];
[1514;1;3;7;9;5;41;111;245;447;263;1363;1767;6331;3355];
[1519;1;3;3;13;15;11;15;169;429;149;1965;2477;7733;2499];
[1528;1;1;5;15;15;47;25;33;469;701;773;2747;1533;14633];
[1533;1;3;1;5;19;57;37;75;423;11;685;2487;1779;8797];
[1540;1;3;1;5;19;41;67;99;333;991;953;3221;939;4197];
[1550;1;3;1;15;11;39;25;1;159;679;465;1611;5799;2537];
[1567;1;1;5;11;5;37;37;7;101;703;235;23;2209;12799];
[1571;1;1;7;3;11;23;71;215;45;269;1539;3625;5773;6889];
[1573;1;3;5;15;27;33;105;109;205;653;821;435;1087;2495];
[1578;1;1;3;5;11;39;53;213;41;385;1425;25;5553;12523];
[1598;1;3;5;15;29;49;13;253;505;407;985;2569;6727;4761];
[1606;1;1;1;3;29;17;69;47;25;819;1145;2479;1183;3343];
[1618;1;3;1;15;25;61;43;55;279;579;361;355;6101;3143];
[1630;1;3;5;11;3;59;125;101;451;495;1711;3443;3625;15579];
[1634;1;3;1;11;25;61;49;219;23;795;481;3609;3691;15419];
[1640;1;3;7;5;9;59;49;233;345;143;181;3587;3041;1219];
[1643;1;3;7;13;9;31;39;137;261;919;1367;3145;4659;5875];
[1654;1;1;3;3;27;43;95;65;301;915;31;451;7743;7277];
[1679;1;3;1;5;23;37;53;31;203;453;71;1585;6011;16369];
[1688;1;1;5;1;15;47;91;227;297;45;1415;3647;7811;14015];
[1698;1;1;1;1;29;27;93;121;169;69;1361;2907;1867;7017];
[1703;1;3;1;7;23;53;77;41;25;873;1333;3889;3239;1771];
[1704;1;1;1;7;31;27;87;81;167;343;1981;2499;7749;15747];
[1722;1;3;5;13;1;17;97;37;81;645;1167;3547;7769;10731];
[1735;1;1;7;5;9;17;31;55;151;463;1041;2303;4015;3737];
[1750;1;1;3;11;31;9;81;213;95;215;2031;2129;4299;3021];
[1753;1;1;1;3;25;25;115;229;101;441;783;1729;7905;2375];
[1760;1;1;5;9;3;19;73;35;379;493;1333;1647;13;197];
[1789;1;1;7;9;3;55;99;43;281;9;73;2477;8183;11055];
[1792;1;3;7;13;25;19;27;195;469;175;355;1861;7255;15377];
[1802;1;1;3;11;15;19;115;31;413;835;697;879;6515;13465];
[1819;1;3;3;15;3;61;105;201;151;739;49;3963;2573;3303];
[1825;1;3;5;7;23;5;11;215;19;591;509;2887;1631;4391];
[1828;1;3;3;3;25;1;109;5;363;545;1745;503;827;4677];
[1832;1;1;3;15;1;45;121;141;497;745;1825;2041;2561;8153];
[1845;1;3;1;11;29;7;71;241;7;39;1379;2479;7483;7195];
[1846;1;1;7;11;3;27;39;97;339;217;1409;1569;4761;1567];
[1857;1;1;5;15;11;53;87;213;297;923;393;717;3297;16123];
[1869;1;1;1;11;27;41;121;49;225;379;1305;319;2461;5445];
[1897;1;1;5;5;25;3;121;23;47;843;1679;1427;6393;4199];
[1906;1;1;5;13;17;3;17;25;161;487;121;361;1375;10745];
[1908;1;1;7;3;3;37;7;245;107;107;745;2415;2131;11419];
[1911;1;1;5;3;3;23;67;91;281;387;465;905;883;9775];
[1934;1;3;7;15;25;55;123;49;23;983;1903;2589;2073;7823];
[1962;1;1;5;11;25;17;63;229;267;175;1759;1947;479;11089];
[1967;1;3;7;3;11;37;83;95;415;1003;1175;2361;2117;9809];
[1972;1;3;1;9;5;39;51;129;249;161;1981;2755;8057;13641];
[1975;1;1;7;1;15;47;9;197;199;549;1091;2853;2331;4535];
[1999;1;3;3;13;15;21;23;111;463;719;1667;377;5039;10723];
[2004;1;1;3;7;23;47;39;47;307;949;1651;2525;5835;1425];
[2011;1;3;3;9;23;47;111;39;251;1001;179;3985;535;15435];
[2013;1;1;3;13;5;45;51;123;205;651;1583;1691;1631;11975];
[2037;1;1;7;9;1;29;59;27;389;497;1459;1633;521;14037];
[2051;1;1;3;3;3;23;35;247;371;729;931;681;1777;8353];
[2063;1;3;3;1;19;15;17;191;495;643;319;37;5691;7049];
[2066;1;3;5;11;5;31;123;243;335;573;113;209;4825;7783];
[2094;1;3;7;7;29;19;25;191;89;515;55;3013;4523;12913];
[2128;1;1;3;3;15;3;35;37;339;7;697;359;4553;1431];
[2154;1;3;1;1;9;15;33;77;161;13;255;1187;6587;11715];
[2164;1;3;7;7;25;57;61;171;231;43;1219;903;5623;4781];
[2198;1;1;5;15;29;47;117;23;213;907;1423;369;4529;9651];
[2217;1;1;5;7;15;55;105;249;401;37;1885;3779;3441;9057];
[2220;1;1;5;3;3;27;49;89;335;561;1235;3251;2731;12711];
[2223;1;1;1;15;29;49;37;173;25;743;1321;821;5899;9213];
[2238;1;1;7;3;1;41;61;209;275;925;521;3029;1569;9277];
[2245;1;3;5;13;17;1;11;171;441;119;1589;299;157;11439];
[2252;1;1;5;9;13;33;27;77;363;939;1103;2135;1759;5429];
[2258;1;3;7;1;17;39;49;201;49;803;2003;1193;7415;13847];
[2264;1;1;5;5;17;49;39;19;311;801;1441;3263;7973;14181];
[2280;1;1;3;9;9;27;59;89;81;473;1369;3121;7929;10905];
[2285;1;3;3;5;17;35;35;239;379;431;501;3561;2059;9679];
[2293;1;3;5;15;25;29;113;179;269;891;301;2017;7513;9379];
[2294;1;3;1;11;17;35;49;149;135;661;1691;3169;3765;9003];
[2298;1;3;7;15;5;21;53;241;475;271;683;2351;2181;6333];
[2303;1;1;7;13;25;33;71;153;221;507;2017;2401;7545;8489];
[2306;1;1;7;5;1;49;87;1;179;331;1597;3713;809;11109];
[2311;1;3;1;5;5;61;93;39;479;977;1099;1291;7049;2797];
[2326;1;3;1;13;19;41;57;77;5;117;125;115;3969;1345];
[2354;1;1;1;9;15;9;57;7;219;41;767;23;5771;14175];
[2373;1;3;7;9;17;61;1;59;227;349;63;189;3871;7919];
[2380;1;3;5;5;9;29;33;203;413;701;1129;2103;1889;8377];
[2385;1;1;3;1;9;17;69;115;123;1001;1;2893;3957;8593];
[2392;1;1;3;1;31;41;83;91;113;195;1121;2665;6815;1189];
[2401;1;1;1;13;3;59;13;123;95;103;1689;2809;5049;4055];
[2402;1;1;1;15;21;41;11;167;375;589;207;1631;1597;8091];
[2408;1;3;5;5;1;33;57;89;157;921;1353;2777;461;14567];
[2419;1;1;5;1;25;5;51;247;1;577;463;3741;303;16059];
[2450;1;1;7;5;13;7;17;87;51;987;835;93;5203;3973];
[2452;1;1;7;7;3;27;7;1;135;171;231;3349;4459;2925];
[2477;1;1;5;5;9;51;71;153;115;315;265;2207;4127;12631];
[2509;1;1;3;15;23;59;35;121;425;921;1255;2123;5811;15937];
[2510;1;3;7;7;11;21;45;57;269;395;555;783;6677;2889];
[2515;1;3;5;7;31;19;73;35;465;349;1429;863;4707;6121];
[2524;1;3;3;9;25;27;119;159;195;949;19;73;4511;15711];
[2527;1;3;3;7;9;59;47;57;91;749;1579;1297;2445;5167];
[2531;1;3;3;3;31;57;19;203;61;927;1477;2863;1305;11673];
[2552;1;3;7;11;29;13;3;111;351;79;1863;2213;3273;7049];
[2561;1;3;3;9;7;23;47;237;121;877;441;119;2723;3989];
[2567;1;3;3;11;17;23;63;177;231;363;1451;33;2169;7251];
[2571;1;1;5;11;31;41;93;229;39;1009;1061;433;2393;15401];
[2586;1;1;5;15;31;37;25;135;135;897;33;3713;7663;8079];
[2588;1;1;5;7;17;49;43;89;411;731;1431;3893;1635;7063];
[2595;1;1;1;13;29;27;5;77;283;913;789;817;3309;475];
[2607;1;1;3;1;19;21;67;77;423;551;5;1057;5469;7859];
[2621;1;1;5;1;1;21;99;237;215;759;1505;1983;1517;8923];
[2630;1;3;5;7;19;61;73;215;165;127;205;259;7755;15395];
[2639;1;1;5;9;15;23;17;111;471;751;1923;775;6901;13095];
[2653;1;1;7;1;25;5;63;141;461;687;1589;1559;7719;11349];
[2670;1;1;1;3;11;63;11;27;253;439;297;1315;829;3765];
[2672;1;3;1;1;9;47;127;179;173;809;241;35;7355;5049];
[2700;1;3;1;11;19;63;93;1;205;977;303;3409;6529;10927];
[2711;1;3;7;9;31;63;41;79;477;91;1801;3487;6885;13341];
[2715;1;1;3;7;15;59;9;101;459;247;549;2855;5765;7785];
[2748;1;1;7;3;13;59;71;123;93;517;1453;2389;4429;5053];
[2751;1;1;5;3;19;21;77;53;81;879;1653;1637;3667;2623];
[2753;1;1;1;15;17;57;65;53;407;765;417;497;5009;2175];
[2754;1;3;3;7;31;13;5;203;263;17;119;1607;6773;11195];
[2760;1;3;3;13;19;13;13;147;93;735;689;781;655;6853];
[2774;1;1;1;1;1;25;63;159;493;987;71;1249;5859;11717];
[2784;1;1;1;15;13;23;61;61;5;947;1853;3331;467;8081];
[2793;1;1;3;9;19;61;65;189;95;309;283;1725;5683;15463];
[2804;1;1;7;5;9;33;35;75;475;831;1445;1485;5047;9631];
[2811;1;1;3;15;11;23;59;87;433;221;685;3113;4095;13819];
[2822;1;1;7;15;25;29;67;17;349;353;1321;563;57;533];
[2826;1;3;3;3;5;43;109;217;15;185;1895;1015;1831;10623];
[2836;1;1;7;1;1;47;81;185;59;691;191;3709;1535;13347];
[2839;1;1;5;1;23;57;83;217;457;771;1877;2789;8143;4797];
[2840;1;1;3;7;23;35;79;49;227;205;1523;3873;4843;10505];
[2893;1;1;1;1;17;43;121;95;205;35;189;2061;1693;13273];
[2901;1;1;1;15;31;49;83;249;433;497;1949;1845;5215;5971];
[2902;1;3;1;1;21;53;73;211;265;929;923;279;3621;9469];
[2905;1;3;7;7;1;57;13;45;467;705;371;1345;1647;3411];
[2912;1;3;1;11;27;29;117;163;143;669;489;3913;7891;9031];
[2915;1;3;7;15;27;15;77;217;107;839;1517;1543;357;10365];
[2918;1;1;1;5;31;17;107;245;345;939;1453;3645;6865;16173];
[2939;1;3;5;5;9;61;43;97;453;917;945;2143;5473;5611];
[2965;1;1;5;11;3;33;71;97;137;549;1605;3839;4883;2677];
[2966;1;3;1;11;29;23;85;47;225;633;1613;1297;1415;15813];
[2975;1;1;3;3;9;19;57;107;79;449;1951;753;6317;10377];
[2988;1;1;1;5;21;3;39;187;299;517;1313;741;7259;4197];
[2993;1;1;5;13;1;39;39;41;381;123;1257;3185;493;3723];
[3006;1;3;7;7;3;37;15;161;129;169;555;3605;4287;15831];
[3017;1;3;7;15;15;23;81;163;257;791;505;1903;2703;11919];
[3031;1;3;7;7;27;63;17;147;111;851;1533;1365;5359;3315];
[3038;1;3;7;1;15;5;61;143;385;261;1019;1705;1737;14485];
[3041;1;3;5;5;25;17;49;229;431;567;1613;3431;2139;2981];
[3042;1;3;5;11;17;57;71;241;31;1007;1695;2965;149;14125];
[3051;1;1;3;11;7;49;39;101;5;501;1491;3061;225;12255];
[3073;1;3;5;7;17;35;37;97;415;15;1349;997;2949;4511];
[3088;1;3;1;5;25;35;99;183;161;59;1363;515;3767;3641];
[3097;1;1;7;15;7;15;127;137;281;67;139;2315;3517;13371];
[3098;1;1;5;15;23;49;19;79;425;805;1035;429;7707;14195];
[3103;1;3;5;3;21;25;123;11;425;475;961;2995;7405;5449];
[3104;1;1;7;1;21;1;75;231;451;595;719;2369;5907;1227];
[3146;1;1;1;9;21;57;45;255;19;79;481;3363;3451;8399];
[3148;1;1;7;13;31;49;95;69;483;427;37;4047;7057;9111];
[3153;1;3;3;11;3;61;87;79;499;91;771;1987;2017;3381];
[3159;1;3;1;7;5;57;1;121;155;225;501;477;6555;9863];
[3182;1;3;7;11;27;49;83;213;61;283;1599;3205;2525;8553];
[3187;1;1;1;9;9;49;3;51;141;33;301;2167;587;15067];
[3189;1;1;1;11;7;55;99;81;191;553;953;3753;6731;1093];
[3199;1;1;3;3;11;59;57;235;297;197;853;1411;3799;7527];
[3239;1;3;5;3;7;7;5;201;393;95;91;3273;6285;10661];
[3263;1;1;5;7;17;57;87;3;413;915;659;369;3593;14429];
[3271;1;3;7;1;31;31;45;115;417;427;745;4087;953;1119];
[3275;1;3;7;3;29;43;45;221;41;641;451;173;2999;12103];
[3278;1;1;3;11;25;57;117;201;135;787;1525;3879;3247;8907];
[3280;1;1;7;11;3;35;69;157;331;615;573;2169;3575;289];
[3283;1;3;3;13;15;51;67;127;265;495;103;3145;2685;15919];
[3290;1;3;5;11;31;27;65;57;153;465;1163;467;4103;4713];
[3311;1;3;7;3;23;31;9;51;239;417;1597;229;2865;15199];
[3316;1;3;5;3;11;45;123;217;31;765;1009;2001;3645;9407];
[3343;1;3;3;9;5;23;117;83;237;1017;251;1187;2631;5151];
[3346;1;1;1;7;23;55;97;141;501;305;467;4061;2369;15973];
[3357;1;1;7;5;31;51;125;191;219;495;37;3337;813;241];
[3358;1;3;1;1;11;39;93;109;285;147;1297;737;4051;7223];
[3361;1;3;1;15;13;17;57;171;463;163;609;1681;7583;9231];
[3362;1;3;1;1;23;5;51;5;205;415;419;989;4239;10943];
[3364;1;1;3;15;3;13;65;145;387;59;395;1067;4143;5649];
[3386;1;3;1;13;9;59;121;127;95;71;1541;1423;1753;8041];
[3418;1;1;3;15;7;5;69;167;181;991;1189;4017;5935;6669];
[3424;1;3;5;7;23;41;53;21;47;261;1231;2011;133;2247];
[3433;1;1;1;5;17;47;77;19;331;609;1893;3965;3123;9093];
[3434;1;3;1;3;9;39;103;231;249;75;373;107;1823;10801];
[3436;1;3;3;7;1;51;35;111;137;879;1221;225;4285;2287];
[3463;1;1;7;9;23;17;75;245;409;163;395;3731;7111;6845];
[3467;1;1;3;13;29;47;75;153;497;621;1691;3187;2125;10533];
[3477;1;1;7;7;9;7;55;159;255;417;1335;643;3843;3733];
[3484;1;3;3;1;21;41;7;21;5;679;1655;95;5699;5785];
[3505;1;1;1;13;19;7;85;7;195;357;1097;2893;2913;9635];
[3508;1;1;5;9;25;33;41;155;39;655;1993;3117;3639;7977];
[3515;1;1;1;13;3;63;121;247;151;673;609;285;2299;7663];
[3532;1;3;7;11;17;13;49;253;245;21;273;993;911;863];
[3553;1;1;5;5;23;1;121;95;225;9;1237;1183;6461;559];
[3554;1;3;7;13;3;7;121;151;233;561;281;3583;897;1767];
[3568;1;1;7;7;9;47;107;41;25;569;1697;2299;6231;12209];
[3573;1;3;7;7;27;43;59;37;31;51;503;149;4043;11847];
[3587;1;3;3;11;5;1;119;181;47;641;685;4017;637;16251];
[3589;1;3;3;7;11;1;101;7;239;747;307;1721;5979;4367];
[3596;1;3;5;7;1;63;19;151;469;333;1587;2453;897;4711];
[3608;1;3;1;5;11;61;21;253;91;993;1347;1993;5607;13031];
[3620;1;3;5;5;1;39;65;71;189;389;1437;1055;6439;3989];
[3630;1;1;3;3;19;15;93;3;339;165;1675;3953;2145;12113];
[3644;1;1;3;13;13;45;5;175;211;993;705;2761;3023;13633];
[3649;1;1;3;1;19;39;121;29;287;87;281;3491;7107;13007];
[3664;1;1;7;1;29;49;103;187;39;923;51;1533;3249;4399];
[3679;1;1;5;5;5;43;25;107;453;955;115;57;4589;14573];
[3680;1;1;3;5;21;45;103;99;183;987;1207;1697;8033;13703];
[3685;1;1;5;7;11;23;9;17;261;749;1957;935;6283;8625];
[3686;1;1;1;9;9;51;69;225;265;323;1161;2993;7305;2249];
[3698;1;3;1;9;23;19;57;205;503;489;1499;3277;817;11931];
[3714;1;3;3;5;1;7;49;1;313;123;643;2027;1469;3585];
[3726;1;3;7;11;27;47;95;111;27;213;465;3693;3661;7531];
[3737;1;1;7;9;3;37;115;189;31;613;1393;1229;4767;12425];
[3767;1;1;3;3;25;17;99;47;161;931;959;1293;7095;8325];
[3782;1;1;1;7;23;9;11;51;205;419;479;1497;2493;13921];
[3786;1;3;1;9;17;29;51;79;159;435;477;413;3815;5589];
[3793;1;3;7;5;7;23;99;43;169;665;403;1163;4337;1335];
[3796;1;3;1;5;25;27;125;249;421;267;1259;4089;59;9377];
[3805;1;3;3;1;27;37;91;17;123;597;1749;3449;6503;11043];
[3815;1;3;7;7;23;41;19;245;109;569;547;1917;7943;2697];
[3841;1;3;7;7;9;1;123;105;329;435;2013;2745;347;11045];
[3847;1;1;1;13;29;53;51;67;105;89;1887;3543;963;8159];
[3853;1;1;5;3;5;27;41;67;67;883;973;1785;901;14969];
[3862;1;3;3;13;17;11;117;115;163;939;79;641;4365;2267];
[3875;1;1;3;3;9;5;41;123;149;9;1533;3939;5995;12701];
[3902;1;1;1;15;31;1;101;229;191;965;61;2671;4177;15779];
[3904;1;1;5;15;1;25;49;185;33;697;1043;2639;7819;3171];
[3916;1;3;5;13;19;9;111;49;47;847;1865;717;5287;13417];
[3947;1;3;7;11;5;61;63;111;171;735;2003;73;5701;647];
[3949;1;3;1;11;1;49;121;79;431;671;1241;1161;2057;263];
[3955;1;3;3;1;1;23;75;15;117;641;313;1525;2041;1409];
[3962;1;3;5;11;15;57;13;67;139;131;1339;2419;7945;11877];
[3971;1;3;1;1;19;39;97;83;297;595;1611;5;4753;3435];
[3980;1;3;1;9;7;49;125;101;383;717;63;2295;3873;13461];
[3985;1;1;3;3;15;29;89;77;269;689;229;1207;7311;8663];
[3998;1;1;1;1;1;61;25;255;203;233;271;987;2277;8735];
[4001;1;1;5;7;21;27;63;79;337;133;1453;3633;6157;15875];
[4002;1;3;1;7;7;55;31;81;203;709;1743;1677;4247;11411];
[4016;1;1;3;3;29;51;37;17;487;325;1393;1433;3467;2851];
[4021;1;1;7;9;3;41;99;177;241;869;739;2729;4585;14801];
[4026;1;1;3;1;9;43;97;65;99;295;1693;2083;3241;4073];
[4043;1;1;1;9;5;39;67;119;235;543;795;2773;3195;6273];
[4079;1;1;5;5;21;41;89;1;85;81;57;2951;1531;10101];
[4102;1;1;1;7;3;35;127;69;39;265;1643;2973;267;12365];
[4106;1;3;1;1;21;57;99;205;119;477;1771;1989;2761;12573];
[4119;1;1;3;13;1;59;93;125;279;935;1877;2061;4845;7835];
[4126;1;1;7;9;7;45;69;99;273;35;1579;2137;7175;6999];
[4147;1;1;7;7;29;21;127;91;9;383;787;1783;601;5047];
[4149;1;1;7;13;7;29;35;219;43;581;2043;2211;6169;12173];
[4164;1;3;5;13;29;29;39;63;411;645;415;2383;1989;11411];
[4174;1;1;7;9;15;9;87;95;321;709;543;3831;2453;4167];
[4181;1;3;1;5;31;25;5;85;239;487;1613;3937;4661;3535];
[4185;1;3;5;11;27;41;3;201;39;91;1997;237;5639;14703];
[4188;1;1;7;3;27;49;87;71;473;247;1007;47;475;5413];
[4202;1;3;7;15;9;57;81;149;287;333;1911;3417;1081;8995];
[4228;1;1;5;1;3;63;43;151;97;431;961;1019;5153;2407];
[4232;1;1;5;5;27;21;127;161;507;311;129;3489;1133;3241];
[4246;1;3;7;15;21;33;117;83;497;667;1399;931;1695;8171];
[4252;1;1;1;13;3;39;53;27;193;993;671;1871;7579;11457];
[4256;1;1;5;11;7;39;81;107;195;387;849;395;1317;6487];
[4286;1;3;3;3;3;15;45;127;279;111;331;357;4637;4697];
[4303;1;1;3;9;21;49;47;97;61;101;181;1867;1201;14099];
[4306;1;1;5;11;25;19;51;51;101;451;545;101;7497;9141];
[4311;1;1;1;3;13;53;119;81;377;245;765;251;3757;16045];
[4317;1;1;1;3;5;61;65;37;331;925;1439;3219;2843;11397];
[4342;1;3;5;9;23;31;95;155;83;641;1129;135;477;1623];
[4346;1;1;3;9;9;61;93;11;331;585;799;1417;1533;463];
[4377;1;1;7;7;21;51;61;29;467;935;11;3357;1087;12337];
[4401;1;3;3;11;1;39;103;153;351;893;1823;835;2149;4203];
[4407;1;1;1;9;31;13;61;235;369;359;835;2067;2697;15289];
[4414;1;1;7;1;15;1;107;27;201;451;1521;313;3195;3847];
[4422;1;1;5;13;1;27;63;137;355;489;2039;1015;2519;13797];
[4431;1;1;7;9;29;33;23;197;49;555;1087;3447;7299;15513];
[4434;1;3;5;11;7;37;55;63;443;573;1715;631;3405;6155];
[4436;1;3;3;3;31;35;51;167;225;617;2007;2555;6819;12709];
[4443;1;1;1;13;15;5;73;85;109;43;1067;3941;1125;10269];
[4459;1;1;7;11;17;3;127;145;279;19;1007;3287;4751;12507];
[4461;1;3;7;3;19;1;117;111;193;435;47;1801;529;8547];
[4462;1;3;3;13;1;19;101;19;469;187;207;1243;8153;3273];
[4473;1;3;1;5;11;51;69;189;453;775;241;3331;4067;14759];
[4497;1;1;1;1;23;55;113;133;497;731;391;2777;3529;955];
[4504;1;3;1;11;5;49;59;35;261;949;325;3595;7433;11099];
[4507;1;3;5;9;13;37;103;219;329;865;1787;2497;7249;9877];
[4525;1;3;7;9;11;33;19;255;191;935;1115;1901;1577;9623];
[4534;1;1;5;7;29;23;77;43;283;143;1211;73;2835;10235];
[4538;1;1;7;3;3;27;35;173;453;425;1225;3023;2159;8433];
[4548;1;1;1;5;27;21;35;25;71;145;1545;523;4527;7655];
[4552;1;1;5;3;13;49;61;157;113;775;763;1785;225;11851];
[4560;1;1;3;1;31;57;97;229;291;777;213;4067;921;8203];
[4575;1;1;5;1;25;13;125;123;263;207;119;3111;3841;843];
[4599;1;1;7;7;25;57;81;129;31;133;1869;2949;5563;14965];
[4612;1;3;3;7;3;51;33;127;281;425;1253;405;7941;8799];
[4619;1;1;3;9;3;63;93;173;255;609;49;111;7785;15865];
[4640;1;1;1;3;17;59;113;55;155;789;1335;177;3071;1851];
[4643;1;3;7;15;15;23;35;35;131;623;47;437;1337;9891];
[4677;1;3;7;5;29;57;39;31;111;271;59;1473;949;3899];
[4687;1;1;3;11;17;19;41;229;259;691;1455;3023;7455;9711];
[4723;1;3;5;11;29;13;9;165;499;355;1415;1395;7595;15571];
[4730;1;3;1;9;5;5;25;247;185;241;1325;3133;7471;2649];
[4736;1;3;3;11;17;29;57;61;51;203;993;1837;3785;15163];
[4741;1;1;7;7;21;57;79;165;277;133;93;1055;7169;15685];
[4763;1;1;5;3;5;17;25;177;95;323;367;1359;4915;6409];
[4765;1;1;1;1;11;25;115;45;373;221;1483;591;6561;4527];
[4770;1;3;5;3;5;23;69;77;313;473;1037;4045;3969;5445];
[4781;1;3;1;5;1;15;73;83;439;463;203;361;6835;1061];
[4808;1;1;3;11;21;5;89;233;405;253;773;3901;6085;5677];
[4822;1;1;3;9;15;53;71;29;101;599;1073;705;4507;12779];
[4828;1;1;3;1;3;9;27;97;207;859;417;735;2179;5071];
[4831;1;1;1;3;13;63;65;125;195;611;649;2221;3143;143];
[4842;1;3;3;15;17;57;99;119;243;407;1229;813;5245;1893];
[4855;1;1;1;5;27;27;49;13;313;287;473;2629;3509;11371];
[4859;1;1;7;7;23;3;75;59;245;689;1215;2375;3325;1593];
[4867;1;3;1;5;21;51;43;107;91;611;1405;677;2087;9565];
[4870;1;3;7;11;9;27;81;101;449;201;1507;2217;6767;8059];
[4881;1;1;3;9;13;41;21;195;421;315;347;2621;2359;9247];
[4893;1;1;5;7;31;45;77;229;455;575;1087;1147;2273;13773];
[4910;1;1;1;1;9;5;87;19;207;545;1435;495;1299;4947];
[4917;1;1;3;3;15;9;63;67;219;735;1911;2361;6503;11977];
[4929;1;3;1;9;31;27;103;153;81;939;461;2753;697;537];
[4939;1;3;3;9;21;53;49;211;415;817;321;3775;2921;9473];
[4947;1;1;7;3;23;55;15;51;435;1013;73;3967;4575;13099];
[4949;1;1;3;7;5;27;43;225;267;21;1261;603;6913;4421];
[4954;1;1;7;13;25;31;101;109;237;91;1587;1987;2795;6991];
[4972;1;1;3;13;23;51;91;89;287;39;1513;463;6135;10469];
[4975;1;3;3;1;9;43;125;157;369;495;1849;785;6357;6557];
[5000;1;3;1;13;5;25;107;139;367;239;1671;1239;7027;5291];
[5005;1;3;5;13;11;13;35;177;45;939;251;59;333;13105];
[5029;1;3;5;7;29;57;109;227;435;739;423;1941;3345;12731];
[5039;1;3;3;9;23;51;19;207;69;99;955;519;7305;2415];
[5044;1;1;5;13;17;1;67;201;61;403;1059;2915;2419;12773];
[5051;1;3;1;11;17;19;25;27;207;299;143;1955;5669;2301];
[5056;1;1;5;3;25;57;45;255;489;1011;1699;2637;5279;12211];
[5073;1;3;3;15;7;47;113;33;511;907;1815;1741;2091;13857];
[5096;1;3;3;5;5;27;95;3;353;253;947;393;1815;14551];
[5128;1;1;5;11;29;19;63;117;293;861;2039;9;5999;6909];
[5134;1;3;7;3;15;63;107;173;509;817;99;2825;131;7917];
[5161;1;3;1;1;29;49;33;153;119;777;1315;3581;5675;4043];
[5179;1;3;5;15;13;11;17;147;327;305;367;3237;5423;13757];
[5193;1;1;5;13;1;39;35;29;25;751;1365;2243;8181;7063];
[5199;1;3;7;11;25;53;11;111;289;755;1201;691;3679;3725];
[5202;1;1;1;11;11;37;33;211;395;691;1817;861;6485;12077];
[5204;1;3;3;11;21;3;111;171;305;561;1501;2011;7841;10931];
[5218;1;3;7;9;9;59;109;113;31;915;103;1861;2779;10619];
[5247;1;1;1;1;7;25;61;97;103;723;1145;3105;371;339];
[5260;1;1;7;13;17;9;113;51;233;209;1117;211;6969;2347];
[5271;1;1;5;9;25;43;21;217;327;735;197;1063;799;801];
[5301;1;1;7;13;9;13;73;33;415;923;863;1999;5383;8119];
[5305;1;3;1;5;7;33;51;185;289;967;1277;1011;767;15505];
[5319;1;3;3;13;21;11;105;235;343;1021;2009;2251;3865;6923];
[5326;1;3;5;9;29;11;33;17;149;155;1739;3039;7015;2401];
[5328;1;3;7;7;17;13;89;177;297;267;545;3861;329;13267];
[5333;1;3;5;15;27;33;1;231;181;557;447;379;7845;1295];
[5364;1;1;5;13;3;63;59;33;263;877;1867;1383;641;7139];
[5376;1;3;7;5;13;51;9;113;223;605;1189;4063;6925;9563];
[5399;1;1;1;13;5;35;83;107;295;231;265;5;4087;6407];
[5416;1;1;5;1;7;25;95;137;97;987;1753;2781;1369;6903];
[5421;1;1;5;13;19;61;77;229;193;165;811;249;79;10719];
[5427;1;3;7;7;27;9;119;193;459;43;1989;2959;3595;6341];
[5429;1;1;5;11;5;43;35;33;25;581;897;351;4201;3971];
[5430;1;1;7;11;21;29;53;45;359;197;313;3825;6717;4077];
[5434;1;1;1;15;3;45;99;133;357;315;1159;241;2463;11253];
[5441;1;1;7;11;9;33;111;85;443;601;447;337;6471;7029];
[5451;1;3;7;9;13;33;25;31;9;729;1763;4077;7575;7877];
[5465;1;3;5;13;13;37;29;103;53;229;591;1073;1323;14405];
[5466;1;1;5;1;17;33;15;183;473;297;2003;93;4955;1787];
[5471;1;1;5;13;5;29;113;161;267;451;1193;149;273;11809];
[5477;1;1;1;9;17;39;47;233;165;373;955;2891;7523;7235];
[5492;1;1;1;3;7;21;115;205;153;449;339;2073;1077;5749];
[5495;1;1;7;13;9;39;117;187;37;753;227;3519;7391;5751];
[5505;1;1;1;9;5;19;41;161;141;195;1719;3321;5;12877];
[5515;1;3;7;11;21;13;83;55;299;75;1905;3765;4685;12297];
[5525;1;1;7;3;3;23;111;243;187;297;1061;2515;977;9555];
[5529;1;3;7;3;29;11;103;177;225;875;1649;1401;6383;8309];
[5532;1;3;5;3;3;41;71;3;373;757;701;2825;1521;13217];
[5539;1;1;5;3;11;5;103;227;209;723;1543;3895;6345;7901];
[5541;1;1;5;1;9;51;77;67;359;937;557;993;3871;3577];
[5556;1;3;7;1;1;15;121;239;29;113;1123;3877;6941;14129];
[5566;1;1;5;1;27;61;83;113;185;601;947;3933;381;13869];
[5568;1;1;5;3;5;37;97;31;81;367;747;1811;5313;14151];
[5574;1;3;5;9;27;61;87;31;185;521;837;959;5001;3957];
[5595;1;3;5;3;11;61;37;19;107;749;1345;3829;6701;4315];
[5602;1;3;1;15;13;45;101;113;243;963;1861;3283;1419;12131];
[5611;1;1;7;1;11;63;17;117;271;819;677;669;1991;12511];
[5616;1;1;1;13;13;33;41;73;187;537;993;3147;1013;16063];
[5622;1;3;1;1;25;21;107;81;117;917;113;349;4475;9149];
[5628;1;1;1;11;21;21;29;251;125;681;141;2893;5843;14359];
[5655;1;3;3;1;5;41;85;163;387;29;1593;221;2769;10809];
[5662;1;3;5;11;1;17;69;127;273;449;1855;2971;7031;10583];
[5675;1;1;5;7;1;61;9;211;123;563;111;1883;5801;2191];
[5689;1;1;3;11;11;51;1;81;405;803;2017;161;5429;731];
[5722;1;1;7;9;15;55;65;51;459;485;1539;3135;2929;7867];
[5724;1;1;7;11;3;45;15;7;331;417;1813;4009;1341;10965];
[5728;1;1;1;5;9;29;89;121;277;509;1989;1293;4787;16097];
[5731;1;1;3;9;17;45;97;197;339;943;1377;2947;5833;7];
[5746;1;1;7;9;15;61;75;233;401;705;825;2521;3787;14387];
[5764;1;1;7;15;25;57;3;43;361;459;1551;1859;6787;2293];
[5771;1;3;3;11;11;35;91;65;43;509;1829;1149;4801;4109];
[5781;1;3;5;9;15;3;81;109;231;481;417;2505;315;6693];
[5801;1;1;3;9;3;7;107;221;297;543;149;579;927;79];
[5809;1;3;1;11;17;3;81;137;157;587;741;1277;2631;3953];
[5810;1;1;7;5;13;43;117;19;495;185;1105;605;5249;11099];
[5812;1;1;7;9;23;55;91;213;21;779;857;2047;7813;10053];
[5841;1;1;1;1;27;7;39;181;63;519;1073;3147;4111;363];
[5848;1;3;7;9;15;61;7;139;495;805;1545;3789;2411;3989];
[5853;1;1;3;1;25;11;23;241;167;607;479;153;7787;13929];
[5854;1;3;5;15;29;35;45;71;457;297;883;3021;5361;15427];
[5858;1;3;1;7;29;27;93;241;427;89;1185;37;3863;14095];
[5892;1;3;1;5;5;45;51;15;235;889;1649;2331;2713;10943];
[5907;1;1;3;11;11;15;71;85;135;163;139;1147;1043;3195];
[5910;1;3;5;13;3;43;71;131;473;933;569;2491;7751;1865];
[5913;1;1;7;9;21;37;105;227;329;509;1319;307;1557;14625];
[5920;1;1;3;13;15;1;25;93;335;953;769;4039;369;10727];
[5929;1;3;7;5;17;21;59;89;437;679;437;1543;7663;5005];
[5949;1;1;7;15;27;49;125;13;397;877;1087;2191;4711;9065];
[5952;1;1;7;5;15;47;115;125;187;31;1003;2575;5397;3883];
[5955;1;1;7;11;15;1;127;207;383;707;183;1053;3123;14071];
[5962;1;3;3;1;31;53;15;19;477;245;777;1613;5813;7443];
[5975;1;3;1;11;23;59;65;23;493;157;1389;2833;4535;3907];
[5985;1;1;7;1;19;7;51;135;327;441;1841;3091;3451;14381];
[5997;1;1;7;7;3;37;29;249;437;319;1693;945;7639;5923];
[5998;1;3;7;15;7;61;81;127;383;99;23;3833;3973;7651];
[6012;1;3;1;7;7;21;119;185;243;619;1363;2033;4835;5089];
[6016;1;3;1;1;3;27;63;145;271;735;695;3981;3049;5433];
[6026;1;3;3;1;3;29;79;211;279;819;501;3665;1455;10455];
[6036;1;1;3;3;31;61;113;5;411;91;489;3257;5939;6715];
[6040;1;1;5;1;23;11;103;89;377;441;43;967;3383;8717];
[6045;1;1;5;13;29;39;97;189;197;621;1755;333;6783;9711];
[6055;1;1;5;13;27;17;97;197;351;799;335;765;5329;12549];
[6059;1;1;5;11;29;17;9;211;127;633;1187;3965;4145;12667];
[6088;1;1;7;5;27;29;65;115;287;325;461;5;899;2027];
[6115;1;1;1;5;27;17;31;13;231;627;1163;649;1693;9975];
[6124;1;3;1;15;7;49;113;123;427;603;347;2785;7129;4645];
[6127;1;1;3;7;1;33;113;105;411;939;205;3965;4361;4649];
[6132;1;1;1;1;5;21;35;159;275;929;1193;3205;4787;3515];
[6146;1;1;1;5;1;21;29;191;275;233;1239;515;4349;14989];
[6158;1;1;5;11;27;43;111;83;153;577;1537;149;231;839];
[6169;1;3;5;13;21;19;57;69;87;163;271;3535;1057;8517];
[6206;1;3;3;13;17;49;65;45;457;241;391;2033;2507;7771];
[6228;1;1;5;7;11;19;79;133;341;761;27;3905;4137;14363];
[6237;1;3;3;13;19;1;11;139;249;245;1393;2151;2857;1665];
[6244;1;1;3;15;11;7;127;47;385;1007;713;2235;5489;8755];
[6247;1;3;5;13;19;21;21;167;405;655;1653;889;7367;4177];
[6256;1;1;5;3;19;63;99;39;89;415;951;2863;6569;3797];
[6281;1;1;1;13;31;29;119;35;311;839;1749;941;7487;2385];
[6282;1;3;7;3;17;3;97;143;465;345;1457;2201;5329;359];
[6284;1;3;7;11;1;15;3;115;335;567;1749;1811;3491;15939];
[6296;1;1;3;13;3;21;7;141;149;571;1877;473;2143;9569];
[6299;1;3;3;11;23;61;47;179;297;453;181;3405;2981;13409];
[6302;1;3;1;13;1;43;5;201;371;1003;367;2709;7675;14973];
[6325;1;3;3;15;29;17;19;241;495;317;1135;2227;6457;4783];
[6349;1;3;3;7;29;9;57;95;261;531;1717;3389;7991;3793];
[6352;1;1;1;5;31;43;73;119;499;589;1529;3337;4097;15641];
[6362;1;1;7;9;29;43;127;91;243;979;1325;2835;2787;9445];
[6383;1;1;7;5;9;3;115;199;219;901;747;1077;3197;2443];
[6386;1;3;5;1;3;43;7;117;297;313;1043;1579;5099;13289];
[6395;1;1;7;11;29;33;15;121;131;579;317;1871;1121;11653];
[6397;1;1;5;9;25;25;43;89;355;1011;1385;2901;6387;1653];
[6415;1;1;1;9;5;47;61;165;85;757;1397;1177;1657;4899];
[6424;1;1;3;9;11;49;15;139;261;613;931;1299;2777;2835];
[6429;1;1;1;5;3;55;83;227;125;581;1607;1171;6681;14463];
[6439;1;3;5;13;5;55;3;247;493;155;1073;3743;5719;4019];
[6451;1;1;7;1;11;23;13;75;399;847;499;1643;6977;3699];
[6489;1;3;1;9;11;41;47;131;313;627;481;2469;3281;979];
[6496;1;3;5;13;29;3;65;101;11;29;1807;153;1487;16109];
[6502;1;1;5;9;13;31;83;195;351;355;467;3871;3085;4441];
[6511;1;3;5;3;19;21;111;179;143;361;1619;1547;3409;6905];
[6514;1;1;5;9;31;1;93;199;491;135;1627;2559;1389;14561];
[6520;1;3;3;9;25;53;3;105;39;445;259;1045;1129;9153];
[6523;1;1;5;9;19;63;71;9;73;435;1377;4015;1821;6453];
[6529;1;3;7;13;19;13;37;247;391;23;1491;1257;6395;237];
[6532;1;1;3;3;19;55;109;23;227;747;729;2221;727;2209];
[6547;1;1;5;11;25;21;75;37;219;355;1005;1895;7039;5225];
[6549;1;3;5;13;11;43;9;67;87;797;1077;245;4521;11845];
[6598;1;3;5;3;15;29;127;237;277;373;1859;3083;587;1123];
[6601;1;1;7;15;13;7;103;53;13;965;1497;775;3439;1501];
[6610;1;3;3;15;17;13;97;169;67;953;189;2739;1459;10543];
[6622;1;1;5;1;17;39;15;127;327;989;1471;3235;2801;15311];
[6632;1;1;1;15;5;37;55;155;47;463;1851;3467;2765;9359];
[6655;1;3;3;15;1;13;93;239;291;115;365;61;395;15853];
[6665;1;1;5;1;19;27;61;95;105;369;1557;961;6917;3621];
[6666;1;3;3;9;7;35;115;53;111;345;1145;1687;3401;12107];
[6695;1;1;1;5;7;31;63;19;373;79;1369;3037;2835;4439];
[6701;1;3;7;9;11;17;29;33;331;447;1981;3333;6535;6557];
[6709;1;3;3;5;11;41;29;43;365;279;1919;945;179;1987];
[6710;1;3;1;13;7;7;25;33;103;367;1267;763;5691;8643];
[6741;1;3;1;5;11;15;3;213;511;211;1069;4047;3335;12729];
[6745;1;1;3;1;5;11;27;201;361;537;679;3709;293;2997];
[6758;1;1;3;1;25;15;19;185;369;577;1625;655;2363;3861];
[6767;1;1;5;5;1;47;61;45;411;597;955;1007;3775;5809];
[6772;1;1;5;3;27;51;101;167;429;333;1703;3541;2947;3695];
[6782;1;3;5;5;1;53;17;63;141;215;1223;3129;635;15919];
[6797;1;3;3;1;23;31;25;11;195;241;995;3941;573;13855];
[6800;1;3;3;7;17;13;71;203;465;479;1857;1493;8067;7113];
[6843;1;1;5;3;11;57;9;59;225;691;425;2423;6031;6631];
[6845;1;3;7;1;29;57;103;123;401;807;471;2759;5113;15937];
[6860;1;3;1;1;3;1;67;123;157;655;519;323;1853;15041];
[6865;1;1;7;5;11;11;105;135;247;689;1141;2347;7113;9347];
[6878;1;1;3;11;15;37;87;3;209;575;1521;3863;3893;211];
[6887;1;3;1;3;29;55;115;31;19;195;985;3275;363;9801];
[6888;1;1;3;9;13;31;57;251;201;275;1751;389;1463;13159];
[6901;1;3;5;15;19;51;127;255;397;243;29;3007;7845;4687];
[6906;1;1;7;15;9;37;39;217;509;137;1123;3361;6323;5323];
[6940;1;3;7;5;25;3;93;203;345;581;261;2811;4829;6977];
[6947;1;1;7;1;15;41;51;227;447;893;1209;3865;5229;4277];
[6953;1;1;1;5;31;19;23;195;359;853;595;337;2503;16371];
[6954;1;3;7;5;5;13;89;157;351;777;151;3565;4219;7423];
[6959;1;1;1;5;7;1;9;89;175;909;1523;2295;7949;6739];
[6961;1;3;5;15;27;17;11;235;19;105;457;465;3819;11335];
[6964;1;3;1;13;3;41;85;221;451;613;543;2265;6831;1725];
[6991;1;1;7;7;3;29;9;197;455;665;343;1811;5395;393];
[6993;1;1;3;13;29;55;71;95;475;615;2029;123;413;16127];
[6999;1;1;5;9;15;61;9;51;105;271;511;2801;693;11839];
[7016;1;1;7;13;29;9;105;59;377;635;717;4033;6963;10541];
[7029;1;1;1;13;7;13;59;17;335;355;77;3665;7003;9521];
[7036;1;3;1;1;23;43;51;209;151;365;1021;2859;3937;2899];
[7045;1;1;3;3;31;41;111;107;171;433;1233;505;2971;6927];
[7076;1;3;7;13;17;25;127;195;257;551;1867;2145;3695;14567];
[7083;1;1;5;13;13;45;39;195;55;991;1981;1043;5875;581];
[7094;1;3;3;11;25;31;91;153;415;449;1301;563;7755;10671];
[7097;1;1;3;5;31;63;1;157;229;949;971;137;6589;8387];
[7123;1;3;7;15;25;7;89;133;73;497;1361;613;455;1005];
[7130;1;3;3;1;13;5;119;93;175;511;1923;763;7573;7545];
[7139;1;1;3;15;27;59;49;205;497;485;117;2523;4495;15153];
[7145;1;3;7;9;15;47;111;31;363;11;475;2931;6813;1259];
[7146;1;1;5;5;1;35;95;225;17;991;809;2601;6455;13803];
[7178;1;1;5;5;15;1;1;171;433;887;1813;3431;2471;7803];
[7186;1;3;3;15;1;15;43;179;15;949;1881;1027;6989;8955];
[7192;1;3;7;13;1;3;49;183;373;175;1733;913;929;1065];
[7198;1;3;5;7;15;51;107;115;323;357;167;2069;7541;9601];
[7222;1;1;3;5;5;21;31;107;21;299;1937;43;3673;8155];
[7269;1;3;5;11;9;55;35;113;29;99;161;1607;8141;4951];
[7270;1;3;7;15;25;7;113;179;213;19;1717;1027;2021;11263];
[7276;1;1;5;1;31;33;85;111;67;95;2013;2217;871;5329];
[7287;1;1;1;7;7;63;67;145;495;419;1945;3437;6255;151];
[7307;1;3;5;7;17;37;97;187;215;399;1603;2195;5923;769];
[7315;1;1;3;9;25;1;119;193;385;861;2005;2769;675;767];
[7334;1;3;1;15;19;7;5;227;173;383;289;461;579;3689];
[7340;1;3;1;11;1;37;93;239;465;891;1479;921;4439;15265];
[7351;1;1;1;13;27;61;99;69;279;655;1853;1593;6319;9003];
[7352;1;1;1;11;5;7;19;7;387;303;321;931;5809;16029];
[7357;1;1;1;15;21;55;43;107;217;687;19;3225;3419;9991];
[7360;1;1;7;5;7;55;79;41;317;357;859;1205;191;9395];
[7363;1;1;3;11;3;43;7;133;115;995;1205;1055;4153;10481];
[7384;1;1;7;11;31;57;53;9;459;223;1969;3513;7033;8505];
[7396;1;1;3;7;17;11;115;255;281;97;1685;2039;2845;11637];
[7403;1;3;7;1;23;41;69;199;53;105;657;1453;4429;1101];
[7406;1;3;1;5;11;33;91;131;191;73;823;117;1053;127];
[7425;1;3;7;11;7;3;21;65;187;103;1393;1797;6673;1409];
[7437;1;3;7;1;31;25;25;161;299;275;417;2267;6861;1255];
[7445;1;3;5;13;5;11;61;155;115;1001;747;889;3235;5709];
[7450;1;3;7;7;7;1;97;177;507;273;1781;3455;5123;15607];
[7455;1;1;7;5;1;7;59;49;147;343;97;3517;5611;8705];
[7461;1;1;5;13;21;29;13;21;503;515;1217;3905;5513;15849];
[7466;1;3;1;9;9;39;65;111;385;757;583;2225;2039;2817];
[7488;1;3;3;15;23;17;63;169;503;949;849;461;6799;669];
[7494;1;1;1;3;1;41;63;159;251;457;521;1653;623;3287];
[7515;1;1;7;3;9;1;41;37;441;921;1415;2955;5841;1451];
[7517;1;1;5;11;23;29;89;185;413;357;1131;2369;3835;6233];
[7521;1;1;5;15;27;35;17;73;315;911;1761;797;5349;3219];
[7536;1;3;7;11;21;9;119;233;249;901;189;3625;2691;16201];
[7546;1;3;3;13;29;61;105;145;187;79;609;321;4289;3933];
[7569;1;3;1;15;19;63;13;185;115;219;1021;1205;4273;11521];
[7591;1;1;3;3;23;31;93;153;87;947;1039;469;4047;8869];
[7592;1;1;1;1;9;1;85;3;15;995;455;2769;6781;16203];
[7598;1;1;3;3;13;7;55;215;185;367;765;441;4497;1521];
[7612;1;1;1;5;1;31;13;95;417;735;975;3407;4871;16133];
[7623;1;1;3;3;5;43;111;107;419;515;1075;3597;1187;4143];
[7632;1;1;3;13;31;51;83;163;489;887;863;599;9;13861];
[7637;1;3;3;3;19;27;91;115;103;969;593;3667;1867;15433];
[7644;1;3;3;13;7;25;47;141;57;553;1785;1709;7453;2209];
[7657;1;3;1;13;11;13;71;219;5;451;2043;1605;6439;12203];
[7665;1;3;1;13;5;57;61;223;401;413;321;1365;619;12477];
[7672;1;3;1;5;25;57;89;211;195;455;1165;3979;6313;5751];
[7682;1;1;1;9;31;23;71;145;89;285;1593;1171;5685;15459];
[7699;1;3;7;7;9;41;65;251;65;137;1577;3027;5555;2865];
[7702;1;1;5;13;27;5;125;21;171;647;983;2921;6623;5695];
[7724;1;1;1;13;15;9;117;197;123;953;1191;3657;5757;15957];
[7749;1;1;3;7;29;13;5;175;395;127;679;255;6055;7639];
[7753;1;3;7;15;15;51;77;147;319;147;1775;3983;3175;5723];
[7754;1;3;3;3;7;11;119;41;43;153;975;679;3081;10359];
[7761;1;1;5;13;3;7;65;67;63;399;1561;2789;2083;12289];
[7771;1;1;7;3;19;53;103;67;35;865;161;93;2533;3851];
[7777;1;1;1;11;31;9;29;189;199;817;1571;395;345;3777];
[7784;1;3;5;11;31;3;9;67;277;735;181;2777;3009;7233];
[7804;1;1;3;3;17;7;17;3;375;933;237;3919;5409;3355];
[7807;1;3;3;5;9;27;19;77;221;3;1965;309;3001;15977];
[7808;1;1;5;1;3;33;35;133;37;709;627;1705;2525;4307];
[7818;1;1;7;3;25;21;105;55;375;681;881;1299;5879;459];
[7835;1;3;7;1;13;7;113;103;313;515;1041;3683;4619;5093];
[7842;1;1;3;7;19;43;83;37;39;133;1759;1171;1521;13717];
[7865;1;1;7;13;7;35;15;155;293;1001;157;3883;405;1797];
[7868;1;1;3;3;13;19;125;49;333;387;339;1815;4503;7359];
[7880;1;1;3;13;19;19;105;225;151;27;1251;885;4815;7863];
[7883;1;1;1;5;7;59;17;145;77;117;1355;1429;2301;16177];
[7891;1;3;3;13;5;31;119;167;459;727;1799;2537;695;13637];
[7897;1;3;3;3;27;51;107;85;267;57;1279;823;6247;3603];
[7907;1;1;7;15;29;17;67;197;215;465;109;3461;5269;15287];
[7910;1;1;3;5;11;15;123;53;293;797;1105;1777;6509;217];
[7924;1;3;3;13;3;5;109;53;203;693;871;135;369;11149];
[7933;1;3;5;15;17;43;81;235;119;817;1777;261;8049;4251];
[7934;1;1;3;7;7;13;87;99;481;931;1507;651;5267;8281];
[7942;1;3;1;13;27;43;77;225;341;163;933;429;4943;7781];
[7948;1;1;7;1;1;49;85;211;449;479;1395;787;5653;14891];
[7959;1;1;5;9;25;13;49;85;125;85;1281;3365;4305;11791];
[7984;1;3;1;13;3;31;117;39;43;151;663;669;1571;5207];
[7994;1;3;7;15;17;7;79;163;37;841;1799;1787;4501;3785];
[7999;1;1;3;9;1;23;67;191;449;931;1521;2705;887;7037];
[8014;1;1;1;1;5;13;55;161;419;577;1703;2589;2651;2873];
[8021;1;3;3;3;5;19;37;169;69;1003;1755;3101;1469;8583];
[8041;1;1;1;1;11;33;105;79;283;91;299;835;3193;5593];
[8049;1;3;3;13;25;21;81;213;465;475;331;457;61;9511];
[8050;1;1;3;11;1;11;77;95;455;949;1999;1833;1275;5631];
[8068;1;1;1;1;15;25;51;137;275;451;1179;3595;5177;7105];
[8080;1;3;3;3;3;59;79;143;393;583;349;3039;7079;14245];
[8095;1;1;7;9;21;11;123;105;53;297;803;4025;5421;14527];
[8102;1;3;7;11;21;15;103;109;311;321;1217;2777;5457;1823];
[8106;1;3;5;11;19;31;79;89;295;413;817;499;3699;14411];
[8120;1;1;1;5;11;3;81;13;315;841;1543;411;6883;6347];
[8133;1;3;3;11;23;43;23;131;17;517;995;2687;7443;15085];
[8134;1;1;1;1;11;57;73;9;123;905;1763;1789;3701;7131];
[8143;1;1;3;5;9;53;99;229;43;207;625;1583;6727;15249];
[8162;1;1;7;7;17;39;91;1;297;711;225;513;7391;291];
[8168;1;1;7;11;7;55;111;129;423;521;1807;3015;1449;12321];
[8179;1;3;7;3;13;9;125;187;11;485;647;275;3495;11989];
[1;1;1;3;11;11;25;49;33;361;105;271;3841;4837;2437;30181];
[8;1;3;5;1;27;15;119;35;159;273;1489;3157;5433;3337;26859];
[11;1;3;5;13;23;31;97;145;41;605;1455;59;5389;5527;14447];
[22;1;1;7;9;7;41;61;193;353;879;1805;581;5447;11177;7331];
[26;1;1;7;11;29;19;55;207;361;759;63;2255;2119;14671;21783];
[47;1;3;1;13;17;7;73;179;103;23;917;1205;4925;1691;5419];
[59;1;3;5;3;15;3;9;109;227;861;867;3529;1535;489;22873];
[64;1;3;3;9;15;15;95;193;385;997;1525;1865;1425;4079;14771];
[67;1;1;3;5;5;29;49;171;171;623;1167;3743;1809;12009;7043];
[73;1;3;7;5;23;11;87;183;299;555;1857;489;3505;9161;28763];
[82;1;3;5;9;19;21;85;127;337;439;1183;1891;1877;4373;10451];
[97;1;3;7;13;27;17;29;83;463;385;1167;3453;4523;4759;9321];
[103;1;1;3;7;21;59;65;83;177;763;317;2913;7527;5967;17167];
[110;1;1;7;15;13;27;49;35;253;101;1699;355;2181;10859;24221];
[115;1;1;5;1;17;17;81;91;349;655;1373;2225;945;899;31801];
[122;1;3;7;11;5;1;81;53;215;587;167;4045;5671;5597;13529];
[128;1;3;5;15;1;9;59;235;315;195;909;2237;505;10415;28145];
[138;1;1;1;3;9;31;41;43;275;921;25;671;5737;11241;4193];
[146;1;3;3;13;29;13;95;213;317;995;1489;3779;3043;8569;28823];
[171;1;1;7;5;9;49;125;241;87;153;1673;3849;7253;1715;11627];
[174;1;1;3;9;27;27;19;223;63;463;1095;1395;6643;11589;2145];
[176;1;1;3;15;21;17;45;23;357;11;1307;1791;2481;2123;24341];
[182;1;3;5;15;31;53;117;51;433;193;1239;3329;2403;12745;32219];
[194;1;1;5;9;7;27;9;115;417;579;83;173;4717;15665;27463];
[208;1;3;5;7;9;9;31;35;249;567;331;905;5101;14817;14255];
[211;1;3;7;3;1;61;29;129;119;421;1597;2987;3041;7629;23451];
[220;1;1;7;9;13;1;99;105;107;509;989;2259;1009;6827;8903];
[229;1;3;5;15;11;29;85;29;265;105;2035;3349;3543;13903;10213];
[230;1;3;1;1;25;19;53;139;467;485;491;3067;7353;13861;25819];
[239;1;1;5;3;3;43;41;185;45;463;351;2823;2519;6705;11395];
[254;1;3;7;13;11;15;87;221;427;673;1631;599;3259;10691;31283];
[265;1;3;5;11;9;9;15;49;275;335;1613;3587;5309;14849;26475];
[285;1;3;7;9;29;13;79;225;381;781;1411;2761;7157;14983;19717];
[290;1;1;7;11;29;25;117;183;101;651;653;3157;445;14389;23293];
[319;1;1;1;3;5;33;73;155;473;387;591;2045;5965;16299;31499];
[324;1;3;1;7;11;33;29;21;491;937;729;4075;975;2461;18991];
[327;1;3;7;15;29;39;105;111;173;943;69;295;8175;13037;26131];
[333;1;1;5;15;7;5;97;147;105;887;443;2595;5889;10753;1619];
[357;1;3;3;15;11;45;87;207;353;909;1847;323;2283;12885;16415];
[364;1;1;5;3;19;33;43;79;115;653;359;2873;4609;12439;6339];
[395;1;3;7;9;17;61;49;227;291;69;1753;3899;483;3187;29041];
[397;1;3;5;3;25;35;61;211;393;199;691;1779;6295;13371;15817];
[405;1;3;7;5;7;23;37;91;245;915;579;867;6193;1063;17363];
[409;1;3;7;7;23;51;41;63;375;3;159;1889;4419;1687;17977];
[419;1;1;1;7;13;11;53;43;317;325;1749;2423;4123;8595;20773];
[422;1;1;7;7;9;9;61;113;437;213;1407;645;4345;807;30411];
[431;1;3;3;11;17;39;17;113;391;385;581;2023;7449;10153;22033];
[433;1;1;3;5;29;31;101;215;379;377;1113;2855;7147;14377;25515];
[436;1;3;5;5;13;3;121;125;227;969;11;1115;5657;9209;6117];
[440;1;3;7;15;29;17;33;123;317;301;749;1365;5619;605;1613];
[453;1;3;1;15;7;53;125;249;219;655;105;2825;1649;12783;19777];
[460;1;1;7;1;25;53;19;53;157;373;1855;495;5065;9465;2313];
[471;1;3;5;13;3;57;57;161;431;415;1859;1033;6349;1577;31579];
[478;1;1;7;5;23;63;29;221;13;965;1997;2265;1583;10491;9551];
[482;1;1;3;13;31;25;23;61;285;5;2005;879;795;13299;19685];
[488;1;1;7;1;21;45;121;89;263;543;1333;2711;219;10823;26139];
[524;1;1;3;3;27;13;19;117;161;457;1541;295;4953;12125;14503];
[529;1;3;5;3;7;63;13;247;439;681;977;2537;6923;10323;7349];
[535;1;3;5;9;3;51;81;251;349;983;581;2515;2281;2849;31915];
[536;1;3;5;3;11;63;47;137;303;627;91;2269;7097;2145;31059];
[539;1;1;3;15;13;17;53;27;133;13;117;1837;4103;5843;29153];
[563;1;1;5;13;21;33;37;253;465;209;309;49;3209;15677;14569];
[566;1;1;7;15;13;21;33;203;499;141;1155;3893;1663;2115;27459];
[572;1;3;5;11;21;9;39;157;257;273;1257;1831;515;7969;20133];
[577;1;1;3;13;19;29;15;189;103;219;1395;517;7425;6585;15865];
[587;1;1;5;11;21;31;49;151;39;537;1783;3449;6915;223;11587];
[592;1;3;3;11;7;63;69;31;27;911;1903;2821;7977;12949;32257];
[602;1;1;7;9;25;45;23;233;511;595;1383;1721;6789;12055;21179];
[623;1;1;7;13;1;27;123;49;439;683;501;641;1947;6111;25423];
[635;1;3;3;5;1;23;57;241;243;593;2039;1617;2209;5171;9675];
[638;1;1;1;7;5;19;83;55;481;125;177;1021;1139;11403;23099];
[654;1;1;3;5;29;39;33;217;461;907;733;3795;4811;12939;27715];
[656;1;3;7;3;7;11;39;165;495;147;999;1827;817;603;9293];
[659;1;3;7;15;25;53;35;15;431;733;1213;2907;8087;3939;27363];
[665;1;3;7;13;13;9;33;27;485;183;455;3341;2555;4985;8793];
[675;1;1;1;15;25;47;75;21;205;15;1639;3067;1295;11693;16903];
[677;1;1;1;15;3;31;93;57;43;185;251;1899;7885;10829;3609];
[687;1;1;3;1;29;9;69;223;221;537;365;3411;5771;15279;5309];
[696;1;1;7;5;1;5;125;243;213;1003;1571;3355;3981;8781;25993];
[701;1;1;1;13;7;19;53;243;301;75;1183;2723;6687;13;16581];
[704;1;3;1;13;17;51;91;239;437;191;1065;2495;5755;3405;8299];
[710;1;1;5;5;11;59;21;169;299;123;1845;2199;2157;14461;10327];
[721;1;3;7;7;19;47;51;179;41;19;1347;2325;8063;5993;15653];
[728;1;1;1;9;25;27;7;133;223;533;719;353;7093;8285;10375];
[738;1;3;5;15;31;5;67;39;441;495;977;3699;1435;11385;14567];
[740;1;1;3;15;15;39;25;33;91;523;249;4035;769;5181;9691];
[749;1;1;3;3;3;57;83;187;423;165;161;3453;2241;981;8429];
[758;1;1;7;15;1;17;57;189;283;11;823;3505;7025;11879;15441];
[761;1;1;3;11;1;41;7;255;385;339;607;1405;1473;13697;9491];
[772;1;1;7;15;5;9;91;99;211;233;51;2663;1165;9283;18495];
[776;1;1;3;7;21;37;13;91;39;27;1021;2813;5937;6645;3403];
[782;1;3;1;1;29;29;5;69;399;665;1407;3921;2653;11753;18925];
[789;1;3;7;15;13;41;39;1;437;549;161;2315;5631;8335;22661];
[810;1;1;3;1;7;17;115;61;69;955;475;3763;8035;927;17893];
[812;1;3;1;13;21;59;81;145;463;145;1941;2777;7453;14229;11281];
[818;1;1;1;15;15;11;27;165;461;395;1645;3611;7463;12379;26787];
[830;1;1;7;9;29;19;27;123;21;149;1643;4001;7207;6769;4647];
[832;1;1;1;11;13;9;103;139;185;587;591;1113;2223;11667;32671];
[852;1;3;1;1;31;13;19;93;229;125;1471;2369;3055;10277;28563];
[855;1;3;7;5;7;53;99;175;161;851;617;4027;2357;11199;1931];
[859;1;3;5;11;3;31;111;179;237;845;539;1057;259;3417;26637];
[865;1;1;5;3;21;49;125;119;463;403;737;1811;3941;13015;29081];
[877;1;3;5;13;5;29;69;251;313;357;663;1097;3307;12845;28495];
[895;1;3;3;5;29;17;89;15;411;409;2013;757;4085;12521;11131];
[901;1;1;1;15;7;51;3;193;493;133;381;2027;227;6635;12931];
[902;1;1;1;15;7;23;99;203;323;1007;1465;2887;2215;1787;22069];
[906;1;1;5;9;29;59;77;151;509;313;415;3977;5431;8019;8571];
[916;1;3;1;15;19;13;57;217;87;119;25;1149;5667;3765;6959];
[920;1;3;7;13;19;31;119;3;457;117;905;361;1483;12405;27005];
[949;1;3;5;11;15;35;61;77;119;51;1753;2765;1091;10573;23595];
[962;1;3;3;7;1;35;17;93;197;511;1253;3031;2739;15127;15147];
[964;1;3;3;1;11;55;55;107;161;75;129;2195;2023;4877;25797];
[967;1;3;5;7;23;19;113;167;167;271;1303;125;5057;1323;5165];
[981;1;1;5;3;21;31;11;119;215;483;1535;407;6485;15401;30297];
[982;1;3;5;9;21;5;77;95;443;247;913;605;365;7465;19707];
[985;1;3;1;7;17;59;9;35;391;767;1493;475;4725;7529;31579];
[991;1;3;3;7;31;21;61;31;421;179;273;771;5745;10575;32765];
[1007;1;3;5;15;27;13;125;55;423;1021;497;3521;6903;15111;8285];
[1016;1;1;5;9;13;31;105;93;421;709;643;1079;1533;9149;10799];
[1024;1;3;1;11;19;29;53;199;319;247;655;3039;6411;12267;14245];
[1051;1;3;1;11;9;57;5;91;469;149;259;329;5433;6941;15093];
[1060;1;3;1;5;5;51;59;25;455;367;1623;441;3155;11695;20767];
[1070;1;3;7;7;11;49;113;95;91;389;605;1973;2051;2315;22229];
[1072;1;3;5;3;19;11;99;135;433;781;1473;885;1105;3573;3739];
[1084;1;3;1;11;3;25;9;227;433;723;317;139;6627;8067;28439];
[1089;1;1;1;9;9;9;5;63;241;215;1991;2949;3943;775;31511];
[1095;1;1;3;7;17;49;35;167;131;107;1295;2465;4577;11147;29833];
[1114;1;1;5;1;5;25;119;129;391;743;1069;2957;349;6891;13635];
[1123;1;3;1;7;9;31;63;253;215;51;1347;2361;3125;13049;28461];
[1132;1;1;7;9;3;31;21;163;255;47;259;535;5461;3349;30649];
[1154;1;3;3;13;17;33;87;47;243;709;929;3943;3107;3421;13721];
[1156;1;3;5;11;25;61;61;173;397;735;2005;3355;8121;11593;27697];
[1163;1;3;5;15;17;43;63;231;275;311;1277;2669;7307;2099;9755];
[1171;1;3;5;3;25;43;71;191;9;121;1873;3747;7491;14055;24293];
[1202;1;3;5;13;17;35;113;113;385;941;39;2705;1225;5167;1373];
[1228;1;3;5;5;7;35;19;105;487;71;139;627;4187;3183;713];
[1239;1;1;5;13;29;29;103;5;157;869;1675;423;6689;10697;5303];
[1255;1;1;5;1;29;31;61;111;473;963;685;1483;2383;8109;8495];
[1256;1;1;5;3;19;13;95;113;217;59;1353;1647;3617;3271;2321];
[1262;1;3;5;7;25;35;59;131;309;445;415;93;1453;8789;30201];
[1270;1;1;5;1;5;43;71;241;123;189;831;3469;8093;6187;32721];
[1279;1;3;7;5;25;31;123;171;319;379;889;2365;4881;12225;16609];
[1308;1;3;1;11;27;43;121;63;291;591;811;1995;4777;2083;31385];
[1322;1;1;5;11;27;53;85;187;461;823;703;399;6925;11517;28697];
[1329;1;1;3;5;13;11;33;121;93;717;1275;3877;4247;5845;26909];
[1330;1;3;1;9;7;5;47;199;367;561;185;2855;5997;2699;7581];
[1336;1;1;5;9;23;11;71;201;61;729;1011;3529;663;1413;25675];
[1341;1;3;7;13;27;21;11;127;281;487;1217;3129;5541;3129;17783];
[1347;1;1;5;9;1;29;85;193;213;743;1473;611;391;9405;21137];
[1349;1;3;3;3;31;63;37;147;39;351;79;3069;2441;8901;8777];
[1359;1;1;7;7;25;49;55;47;441;343;1267;1123;5917;14395;10579];
[1367;1;1;7;1;13;55;55;123;103;773;125;2145;4743;13347;2589];
[1368;1;3;7;3;9;33;25;183;469;213;291;75;6725;6847;26745];
[1390;1;3;3;7;15;43;7;79;171;21;1767;2537;4285;12007;24039];
[1413;1;3;7;13;9;61;125;23;227;879;215;1635;2835;883;15939];
[1414;1;1;5;13;25;45;63;43;183;829;149;989;987;3819;12181];
[1437;1;1;3;7;19;27;35;83;135;459;785;131;2655;3329;3009];
[1441;1;1;7;5;11;41;9;219;475;985;1329;3787;1975;4679;8627];
[1462;1;1;7;3;1;17;91;155;3;763;1879;233;215;2955;25993];
[1465;1;1;1;11;25;11;23;227;453;775;1935;3833;4583;269;705];
[1480;1;3;3;11;7;25;105;21;449;555;1275;3475;5503;15617;813];
[1486;1;3;7;13;31;37;25;255;233;663;1155;1563;4775;7449;29949];
[1504;1;1;3;1;23;51;51;137;63;809;349;2789;6953;10605;18959];
[1509;1;3;3;13;21;45;15;161;393;229;437;2967;4019;3893;21305];
[1514;1;1;3;7;5;11;15;211;287;131;1847;2569;7881;15669;31037];
[1522;1;3;3;15;27;19;85;251;221;639;665;3729;5771;7873;28005];
[1528;1;3;7;15;15;47;93;215;343;85;1401;1375;2949;13661;25453];
[1552;1;1;1;9;7;51;53;217;471;389;551;1141;1767;2237;17797];
[1555;1;1;7;9;3;29;65;29;223;591;1719;1049;7643;3853;29867];
[1571;1;1;1;11;13;41;85;29;451;387;1783;3733;8033;4711;31643];
[1578;1;3;1;11;11;57;75;153;7;373;2011;271;469;3267;18969];
[1585;1;1;5;3;19;43;7;243;385;293;923;843;4895;469;8421];
[1588;1;3;1;15;29;47;17;125;471;927;349;3859;3059;11483;14791];
[1603;1;3;1;11;17;17;111;109;9;213;1313;3903;4411;4329;28277];
[1609;1;3;3;15;1;55;47;69;143;789;1149;3833;5053;6949;10569];
[1617;1;3;5;7;11;15;79;83;123;937;1115;2775;3041;11869;21167];
[1620;1;3;7;13;9;47;45;221;139;923;1661;1379;2485;7233;6035];
[1629;1;1;3;3;11;55;77;3;87;693;1991;1145;2783;16207;24569];
[1636;1;1;5;11;3;35;91;9;391;927;101;1839;3755;10345;16907];
[1648;1;3;5;3;5;49;79;91;205;443;1369;197;2537;11219;17765];
[1667;1;1;3;15;9;7;25;25;357;247;477;421;7679;5987;30079];
[1669;1;1;5;3;29;5;89;117;481;491;371;389;7101;2253;23617];
[1682;1;1;5;13;29;59;17;181;511;291;1991;3499;8177;5559;30045];
[1697;1;3;3;11;23;31;117;217;241;115;749;945;1897;12253;8473];
[1704;1;1;7;15;25;47;31;1;165;311;635;3629;1593;8305;30033];
[1709;1;3;5;9;3;17;101;237;379;503;49;929;1687;3865;26723];
[1727;1;3;5;5;15;41;1;239;53;215;1733;827;579;4089;6579];
[1730;1;3;1;15;15;21;35;21;403;257;1475;2403;4705;11553;203];
[1732;1;3;5;11;9;53;113;9;447;511;543;3141;7389;11249;431];
[1741;1;3;5;9;9;11;55;93;325;411;305;2573;6871;12339;6435];
[1744;1;3;3;7;31;27;21;113;99;853;365;589;3731;10875;12767];
[1759;1;3;1;7;15;27;31;17;275;93;1161;2619;1329;7307;587];
[1765;1;3;5;9;17;47;49;237;27;193;1237;591;5151;5521;31583];
[1766;1;3;5;3;13;1;27;87;43;977;305;3293;2475;14571;18321];
[1778;1;1;5;7;15;13;101;1;291;807;1711;2277;5573;11051;13133];
[1780;1;3;3;1;9;3;65;81;415;733;1527;2747;6069;159;7095];
[1783;1;3;3;15;27;1;71;49;231;851;2039;613;1899;2537;14511];
[1797;1;1;1;11;3;41;55;23;247;1011;581;2363;2745;1337;20931];
[1807;1;1;3;11;17;61;67;255;143;357;945;3407;5817;4155;23851];
[1821;1;3;5;3;23;1;75;247;265;413;1899;2565;6629;15655;16117];
[1832;1;1;1;9;11;49;11;189;223;177;1457;1931;163;15905;17297];
[1835;1;3;7;13;17;1;111;189;343;961;427;2507;2393;8653;6353];
[1849;1;3;7;13;23;61;59;51;313;963;791;3681;5637;3965;9263];
[1850;1;3;7;7;21;53;127;141;499;859;337;2835;3195;4351;32369];
[1863;1;1;7;5;1;5;53;63;497;535;35;305;4395;9757;13193];
[1867;1;1;5;13;13;31;59;229;211;745;1453;3677;3005;7703;23907];
[1869;1;3;5;5;7;63;17;197;493;861;499;3015;6349;1815;7437];
[1872;1;1;1;13;13;37;29;189;253;1017;321;3145;407;7547;17099];
[1887;1;3;3;3;23;53;69;77;175;17;1831;841;3851;1295;32107];
[1888;1;3;7;13;13;39;107;237;389;729;635;3717;3041;3169;14987];
[1897;1;1;3;1;25;7;69;35;495;49;659;2783;6051;13875;23927];
[1906;1;3;7;5;5;25;49;7;193;493;93;657;1515;13975;14155];
[1917;1;3;1;1;11;15;113;45;21;595;731;3397;4117;9711;16625];
[1927;1;3;3;9;19;19;59;7;105;579;599;2859;97;14717;15361];
[1939;1;1;1;5;27;49;113;5;367;563;1397;2805;3021;3111;20671];
[1941;1;3;3;15;27;51;99;167;109;365;1959;1523;6959;14405;18191];
[1948;1;3;1;5;21;51;125;67;123;45;1657;51;4825;14081;31049];
[1970;1;1;5;7;21;59;21;249;77;793;1687;2561;2241;4321;7477];
[1979;1;1;1;7;15;35;71;29;267;611;1813;1823;7039;3299;9919];
[1982;1;3;7;11;21;59;109;213;371;785;659;1687;4827;6017;19619];
[2002;1;1;3;11;27;17;1;55;367;939;333;127;5105;2405;28139];
[2020;1;1;7;13;5;35;59;133;509;573;625;3857;7935;5279;3727];
[2024;1;1;1;7;11;47;127;157;19;403;151;1143;7407;8985;32521];
[2032;1;3;1;1;5;13;105;123;63;139;1569;1983;563;7175;27705];
[2053;1;1;3;13;9;35;105;227;145;21;1369;57;393;2921;18511];
[2060;1;3;1;7;17;61;99;187;261;281;437;2219;5999;1857;18001];
[2063;1;3;3;5;1;59;67;45;451;439;2005;3607;3;7167;14227];
[2066;1;3;3;3;29;19;25;251;275;733;1749;4021;871;3227;13701];
[2075;1;3;3;13;27;53;57;243;491;521;1921;1037;5013;5703;15261];
[2078;1;3;1;11;13;57;1;15;123;533;785;335;1423;14269;3483];
[2081;1;3;7;13;15;55;5;139;385;47;1981;1291;7397;12925;29445];
[2091;1;1;7;1;23;23;59;93;117;57;63;3047;4849;11637;25311];
[2096;1;1;7;13;19;37;25;203;477;447;1345;3485;2099;13347;11621];
[2102;1;1;7;3;11;23;81;17;41;735;1149;3253;7665;8291;22293];
[2106;1;1;5;3;15;9;57;167;463;493;747;1947;6471;1111;31619];
[2116;1;1;5;15;7;15;107;205;325;167;1749;927;3589;6127;7617];
[2120;1;1;1;13;21;25;83;147;411;399;1423;2279;3661;7591;17429];
[2125;1;1;1;9;5;17;69;205;243;647;473;1717;1977;10725;2913];
[2134;1;1;3;5;5;37;103;15;485;641;1761;3755;6997;10985;11773];
[2178;1;1;5;13;9;51;87;195;97;807;1801;961;6341;4307;29105];
[2180;1;3;1;13;9;35;83;61;387;817;951;3993;7831;8479;23941];
[2187;1;1;7;11;19;47;75;37;91;337;953;1169;163;2259;24713];
[2189;1;1;1;11;13;15;83;171;159;87;619;2973;2653;13725;12499];
[2190;1;3;5;3;5;63;119;25;343;269;553;2183;959;3825;22189];
[2208;1;1;5;15;5;37;89;109;497;1013;265;669;1859;2647;3445];
[2214;1;3;3;9;21;21;15;245;107;649;367;1601;7279;15783;4943];
[2237;1;3;3;15;5;41;125;113;159;161;1191;3491;3531;55;20857];
[2252;1;3;5;9;21;57;21;195;99;193;1915;2923;6349;15085;24929];
[2257;1;1;1;11;31;11;73;141;361;621;1021;2067;5115;12665;26845];
[2260;1;1;1;3;29;11;43;61;209;923;1753;1937;843;205;8367];
[2264;1;1;1;5;15;33;119;209;215;973;1775;815;6693;7957;14517];
[2270;1;1;1;5;17;57;27;147;489;59;1439;2279;445;11791;19739];
[2279;1;3;1;7;11;55;1;83;305;17;1909;405;2325;5293;28559];
[2288;1;3;3;7;11;27;103;157;455;1005;2033;3145;1919;15723;25197];
[2305;1;1;5;11;15;51;37;131;503;1007;1795;2421;1335;7413;21741];
[2312;1;1;3;1;23;63;69;83;419;283;583;123;7725;2243;8403];
[2317;1;1;5;5;27;45;109;17;299;65;351;947;1165;10723;2053];
[2323;1;1;3;3;23;61;115;253;1;931;1481;3187;441;14735;27207];
[2329;1;1;5;3;25;11;83;141;359;343;901;1629;731;12841;14357];
[2335;1;1;3;9;7;45;97;3;299;217;663;1527;6379;4527;26147];
[2342;1;1;7;9;11;53;9;203;337;713;1517;719;4587;11443;26905];
[2345;1;1;7;9;11;41;125;213;237;377;361;3231;4223;3263;12655];
[2365;1;3;7;7;7;33;99;19;117;273;985;107;3831;10135;19423];
[2371;1;1;5;15;25;41;13;125;449;169;1149;4021;5663;3077;19163];
[2378;1;3;5;9;25;57;47;103;269;51;1805;2503;6687;8065;12045];
[2385;1;3;5;7;3;35;87;225;189;229;931;3293;1347;1427;3269];
[2395;1;1;1;3;5;31;61;19;247;9;1667;343;559;2703;3763];
[2404;1;3;5;15;31;19;57;187;109;121;1287;2269;659;16235;1273];
[2414;1;1;1;3;5;47;59;243;255;97;1959;1723;1347;3019;26989];
[2426;1;3;3;15;29;35;75;67;497;731;193;3307;3579;12005;7209];
[2428;1;1;5;9;13;35;79;213;51;983;1927;1793;5037;5463;965];
[2441;1;1;7;11;5;41;7;83;15;411;1775;3515;6755;3249;16425];
[2456;1;3;5;1;19;61;3;19;395;819;1331;179;5225;5333;3601];
[2466;1;1;3;9;7;5;87;15;387;609;1465;277;987;8377;903];
[2468;1;1;1;3;15;11;123;107;355;333;285;1801;6989;1549;25791];
[2475;1;1;7;13;27;13;73;111;481;227;1091;365;5713;5087;27217];
[2489;1;3;3;15;1;55;95;213;377;405;139;1867;2175;4217;28813];
[2495;1;3;5;11;21;43;109;155;181;901;1951;507;4389;10815;3141];
[2497;1;1;1;15;17;11;43;215;501;19;259;3479;6381;6927;31247];
[2510;1;3;5;15;19;61;75;41;391;95;865;1441;7993;13979;24663];
[2512;1;3;1;3;21;15;115;213;1;645;777;1517;2543;11223;3633];
[2522;1;3;5;3;9;57;39;211;407;65;1795;2805;2799;8691;1987];
[2533;1;1;3;13;17;55;47;113;29;139;1301;3303;1129;13947;29821];
[2543;1;1;3;13;5;35;97;151;477;409;1397;3399;4421;15929;6163];
[2551;1;3;1;9;21;51;99;133;149;763;623;173;4311;11081;1095];
[2552;1;3;7;15;13;3;99;3;195;907;1335;1355;7977;5773;32383];
[2557;1;1;3;9;17;43;43;217;475;917;1373;1677;4871;9619;16657];
[2567;1;3;3;7;31;31;55;11;73;693;25;417;1195;6225;32279];
[2581;1;3;5;9;21;57;127;149;79;379;1609;2543;6473;16033;27191];
[2586;1;1;5;1;13;9;81;153;297;789;1749;2819;3961;11231;24927];
[2597;1;3;5;3;23;61;45;43;43;133;1481;1543;2991;13739;10287];
[2601;1;1;3;9;25;43;31;177;337;193;1083;1;991;9725;8379];
[2622;1;3;5;11;13;33;65;83;421;149;409;2443;7423;8847;29599];
[2633;1;1;5;11;11;1;23;225;77;585;1505;2525;739;10915;25733];
[2636;1;3;7;13;7;55;3;223;415;521;1865;2349;5663;7455;16569];
[2642;1;1;7;13;1;45;121;49;463;99;1061;2559;5087;13389;11035];
[2644;1;3;7;11;31;51;35;235;385;1023;1771;2013;5437;4877;22119];
[2653;1;3;3;11;21;3;11;119;81;737;1093;2377;4055;1121;15767];
[2667;1;1;5;13;9;3;83;217;387;249;1047;1861;4103;15367;24545];
[2669;1;3;3;1;5;37;43;183;383;463;937;1165;1481;959;17047];
[2672;1;1;3;5;7;43;127;243;81;1021;165;753;4711;12965;22049];
[2675;1;1;5;5;3;61;65;53;425;89;5;1467;1395;9579;8961];
[2682;1;3;7;13;11;35;123;21;83;689;667;1203;5959;15697;26885];
[2687;1;1;5;13;9;49;41;101;291;339;1067;657;4453;1137;21131];
[2691;1;3;3;3;17;61;11;213;27;805;1691;1057;6011;11941;18883];
[2698;1;3;1;7;3;51;5;63;121;3;245;2631;3737;16121;26803];
[2708;1;3;1;1;23;51;79;19;161;107;609;3489;3389;4035;2427];
[2712;1;3;1;1;17;11;101;101;373;63;1641;285;1333;165;14025];
[2718;1;1;1;5;1;51;83;137;45;1019;821;867;6055;10443;9857];
[2722;1;3;1;5;17;23;25;181;429;495;317;3219;5963;13945;9969];
[2736;1;3;7;3;3;15;123;191;369;177;1697;2113;3889;5201;21839];
[2741;1;3;1;11;21;39;51;139;271;605;1007;3513;3365;3781;6799];
[2756;1;1;7;5;13;19;47;165;249;405;255;1295;4513;14395;5587];
[2765;1;1;3;7;5;17;99;1;393;31;621;797;6113;16003;32043];
[2774;1;3;5;13;11;21;65;81;147;443;775;3671;7029;11749;3339];
[2799;1;3;7;1;23;33;99;177;161;577;1729;617;3465;11787;17577];
[2804;1;1;5;7;15;15;53;193;97;255;1223;545;5153;873;24525];
[2825;1;3;5;1;7;57;47;121;383;835;1709;2363;4731;12163;7001];
[2826;1;3;3;11;19;33;63;99;387;95;783;1009;6373;4021;7685];
[2840;1;1;1;15;25;33;73;135;335;785;935;1927;5847;10501;7719];
[2843;1;1;5;3;27;45;71;215;489;157;1189;2577;6901;10219;3025];
[2846;1;1;7;7;21;3;97;225;101;159;293;2789;7955;14829;1209];
[2849;1;3;1;5;23;41;83;63;361;195;1707;2081;5363;6327;179];
[2867;1;1;3;1;21;51;59;67;175;363;825;2971;3321;8837;11805];
[2876;1;3;7;1;19;3;15;21;429;675;1589;2615;2575;1537;7139];
[2891;1;3;3;5;21;29;17;115;345;397;523;1699;7043;11173;3023];
[2902;1;1;5;7;19;63;99;175;91;433;153;3749;517;13667;7423];
[2912;1;3;7;3;25;23;53;149;65;551;1231;365;6637;15137;16319];
[2917;1;3;7;13;5;45;11;151;323;31;1749;409;6753;10503;14991];
[2927;1;3;7;3;5;21;29;117;321;341;1811;3619;4337;12255;8629];
[2941;1;3;7;3;7;3;5;221;407;671;1763;3669;2353;8175;23489];
[2965;1;1;3;7;11;55;53;185;247;35;1823;513;1379;11827;20069];
[2970;1;3;3;5;29;51;73;191;185;961;881;2019;5651;1019;15587];
[2982;1;3;7;13;7;55;59;5;417;829;453;2339;587;13283;797];
[2993;1;3;7;3;11;41;75;85;65;149;1583;529;2707;11479;7109];
[3018;1;3;7;9;13;57;37;243;91;613;665;171;1631;13737;2377];
[3023;1;1;3;7;5;43;97;53;477;793;999;3647;2555;7371;19295];
[3025;1;1;7;1;1;9;99;253;317;817;1559;2081;2529;14611;15997];
[3026;1;3;3;1;5;41;57;121;387;441;709;1511;7045;8409;13297];
[3028;1;1;1;13;29;57;63;183;327;473;1943;213;3973;16289;2739];
[3032;1;3;7;9;25;15;75;185;335;881;1041;3339;4471;6823;21121];
[3053;1;3;3;13;23;3;57;117;511;927;771;3229;949;15487;11963];
[3054;1;1;3;7;27;19;55;207;331;705;1945;797;7125;10493;16585];
[3065;1;3;1;1;29;7;91;93;459;93;1501;1927;6415;16255;9823];
[3071;1;1;5;5;31;11;97;179;505;807;877;4003;4377;8851;4239];
[3076;1;1;3;5;11;25;17;131;23;95;311;1429;2029;13091;23739];
[3088;1;1;3;11;13;27;33;127;481;117;1127;1619;6493;8507;6615];
[3107;1;3;1;13;19;27;89;101;27;235;1579;1701;4421;16037;16239];
[3146;1;3;1;15;1;15;3;117;317;475;1691;2423;5519;1703;2969];
[3148;1;1;3;1;13;15;19;37;237;467;1321;453;2169;13313;31499];
[3159;1;1;3;15;29;55;31;199;85;285;967;367;3941;151;20587];
[3165;1;3;7;15;7;13;31;35;117;543;1179;3441;3039;11225;30229];
[3170;1;1;3;15;3;43;1;63;353;395;1775;3493;5175;13193;25343];
[3179;1;3;3;15;17;25;57;205;411;83;1877;2093;5599;12115;8751];
[3182;1;1;1;11;15;9;115;99;85;887;987;4015;7077;3739;21505];
[3205;1;3;1;11;25;39;127;37;329;273;1531;3211;7115;15501;26575];
[3212;1;1;5;13;15;3;3;101;431;645;493;723;8083;1423;14879];
[3218;1;3;3;5;31;35;37;131;259;849;325;3403;3627;3295;30885];
[3220;1;3;7;1;9;3;31;201;379;907;1005;3333;7457;2533;30357];
[3223;1;3;1;9;7;7;95;103;121;157;895;2683;5839;12403;14327];
[3227;1;3;7;3;13;5;55;233;3;855;859;1115;3883;8041;3353];
[3233;1;1;5;9;3;55;99;79;263;831;1579;205;5673;1999;14879];
[3234;1;3;1;5;17;25;85;19;189;141;877;667;4461;11915;23247];
[3254;1;1;5;5;1;35;15;219;469;725;1793;3683;3661;15627;30197];
[3263;1;1;7;5;27;3;41;153;431;487;759;1345;6735;9937;26277];
[3268;1;1;1;11;11;13;41;121;265;465;1447;5;3407;1907;10037];
[3272;1;3;5;9;15;63;5;7;407;83;365;3687;7721;6973;16967];
[3277;1;1;7;7;5;41;75;155;417;565;1199;1111;2823;10703;22561];
[3292;1;3;7;5;7;43;39;185;105;327;1977;1137;3261;10583;11661];
[3295;1;3;7;7;19;19;103;137;169;273;1357;3413;7647;10531;32489];
[3296;1;1;3;13;13;3;81;23;161;295;735;2031;1027;15513;20165];
[3301;1;1;5;1;15;1;91;35;375;207;1417;1115;2237;11749;8509];
[3306;1;3;7;3;25;51;49;219;195;417;1523;3953;5739;7499;27071];
[3313;1;1;3;11;23;29;19;81;421;633;513;547;7545;29;11909];
[3346;1;1;1;7;13;61;33;243;221;231;111;879;2861;1795;27531];
[3367;1;3;7;3;19;21;1;141;159;605;969;3013;6583;2447;19919];
[3371;1;3;7;3;31;9;91;83;29;873;929;43;2253;12539;23951];
[3373;1;1;5;3;31;15;87;105;319;973;1489;3417;3377;15749;2357];
[3374;1;1;3;15;7;23;3;81;383;419;713;997;6873;593;285];
[3376;1;3;3;1;29;13;29;101;441;693;2039;2951;5921;12129;12053];
[3382;1;1;3;15;9;29;97;117;421;433;1017;125;3607;9415;6843];
[3388;1;3;5;9;11;13;75;155;413;75;109;1599;6161;16115;12621];
[3391;1;3;3;3;11;13;49;225;401;599;1815;1643;7853;13305;25195];
[3403;1;3;7;5;15;11;27;95;387;931;549;2179;3397;15883;16563];
[3406;1;1;7;3;9;39;121;5;453;27;1747;657;2593;1289;12577];
[3413;1;3;7;5;25;25;109;49;185;985;631;803;3865;8955;17901];
[3420;1;1;3;13;3;59;47;49;139;275;1471;2995;5593;14011;18741];
[3427;1;1;5;15;29;11;97;225;245;291;1873;2365;767;3419;14943];
[3441;1;3;3;5;15;17;19;209;359;891;1375;2003;7247;5299;28841];
[3453;1;3;7;7;9;55;105;35;77;47;1023;13;2901;847;10265];
[3464;1;3;7;7;7;5;65;233;141;277;1333;2357;443;7257;21979];
[3469;1;3;5;11;13;63;41;87;193;737;1085;2317;7869;10149;12163];
[3481;1;3;1;1;7;57;75;235;461;857;155;2679;5925;2565;10881];
[3488;1;1;7;15;13;41;63;135;433;387;1943;2249;5469;11679;28661];
[3497;1;3;3;13;5;3;103;161;367;649;789;1179;4163;5699;16787];
[3503;1;3;7;7;31;13;45;141;113;769;1035;457;6709;14989;27311];
[3511;1;1;3;1;1;43;119;145;111;593;1139;417;637;4437;17285];
[3515;1;3;5;9;9;33;19;99;201;685;1793;2621;6857;8769;5623];
[3525;1;3;5;5;23;43;27;189;325;415;215;1253;3599;1215;10093];
[3529;1;1;3;13;11;35;113;173;503;19;1459;503;5363;3967;13945];
[3547;1;1;5;11;31;49;13;173;199;623;1231;2495;6581;7957;25321];
[3550;1;3;1;9;23;3;79;149;505;937;1839;3701;1673;8589;8031];
[3573;1;3;3;5;21;27;107;11;505;407;177;3593;4729;12773;11685];
[3583;1;3;1;11;29;49;79;53;61;895;2035;563;5613;6065;6207];
[3594;1;1;3;7;1;53;3;215;99;865;1749;3533;4305;1243;28463];
[3607;1;1;1;13;31;59;115;53;403;909;847;103;4967;10623;30073];
[3613;1;1;7;5;27;1;119;83;457;81;395;811;6221;14337;541];
[3624;1;1;5;5;5;53;83;117;269;327;875;101;3343;715;26339];
[3630;1;1;1;11;31;39;121;147;305;383;1211;1897;7647;11687;18907];
[3635;1;3;3;15;23;53;17;85;395;503;61;1745;4713;4641;13787];
[3642;1;1;7;7;27;1;105;29;287;37;959;975;4427;4705;10175];
[3644;1;3;3;5;7;63;57;199;27;107;1095;3923;6969;713;11619];
[3650;1;3;5;1;5;49;85;45;449;45;49;3419;1109;455;15917];
[3679;1;1;1;5;13;15;39;27;467;85;1537;3055;1977;8829;25231];
[3690;1;1;1;15;1;47;23;121;147;547;1865;1491;779;3515;12667];
[3698;1;3;3;1;19;5;77;101;1;721;1149;2967;4925;11889;16655];
[3704;1;1;1;7;1;35;95;239;127;855;1031;455;7631;6039;21983];
[3707;1;3;7;9;23;43;75;105;335;223;1825;3217;413;7473;30005];
[3713;1;1;5;15;29;9;43;145;223;523;511;323;5955;11141;22533];
[3754;1;1;3;1;13;61;93;133;461;233;383;693;7347;3165;27493];
[3756;1;3;7;1;13;45;113;207;53;1007;815;1145;2937;289;22195];
[3761;1;3;5;5;19;17;113;89;19;1023;1625;3277;697;5187;15433];
[3776;1;1;3;13;21;15;15;197;409;391;1993;2475;3189;4431;29585];
[3781;1;1;5;5;31;7;111;231;187;543;45;3863;3811;4573;4437];
[3788;1;3;3;7;19;7;123;23;79;513;189;3663;1291;13257;8949];
[3791;1;1;5;13;3;53;109;133;157;223;651;3059;6055;14455;26903];
[3794;1;1;7;1;23;63;59;229;17;199;643;637;7631;13647;7399];
[3806;1;1;1;3;1;51;119;67;335;543;913;3565;4795;13405;7463];
[3841;1;1;5;3;31;5;91;97;23;223;837;1353;1929;12043;10039];
[3848;1;3;5;7;19;3;79;171;301;687;1545;355;4709;12965;16797];
[3851;1;3;5;11;11;49;111;123;251;569;1605;401;5439;13519;8847];
[3856;1;3;1;3;3;53;7;55;369;633;181;4037;2993;15815;8661];
[3868;1;1;1;13;31;29;75;167;279;597;539;1791;8013;4387;9717];
[3875;1;1;5;7;17;15;99;183;211;49;225;3143;4537;13141;23375];
[3882;1;1;3;5;3;59;25;149;467;69;1939;1007;2765;4693;29815];
[3884;1;3;1;3;17;33;119;189;447;251;879;177;5395;13487;9587];
[3889;1;3;3;7;15;31;115;3;21;817;475;1849;6041;12541;18701];
[3892;1;1;5;13;31;33;7;115;361;587;1919;1007;3537;7493;19357];
[3919;1;3;7;13;23;35;15;111;123;633;805;1983;2109;14477;4985];
[3921;1;3;3;11;25;13;11;205;97;893;927;1291;4007;13593;29693];
[3958;1;3;5;15;9;13;121;89;215;823;1389;1581;8095;4707;16061];
[3961;1;3;1;3;23;39;83;23;47;941;1419;2389;5699;7519;5829];
[3973;1;3;1;9;23;43;79;237;93;203;695;225;5645;3591;16775];
[3977;1;3;5;3;15;19;89;129;375;125;225;1323;2267;11607;17937];
[3985;1;3;3;1;31;37;93;133;377;959;707;621;7179;15493;30287];
[3991;1;3;7;13;5;13;15;1;37;525;1641;2829;6139;4069;19187];
[4004;1;3;3;9;17;3;67;97;375;845;403;973;3919;2275;31627];
[4007;1;1;3;3;25;7;91;67;271;465;481;3477;5229;241;8411];
[4019;1;1;1;11;1;41;109;115;75;787;309;2887;179;9073;13895];
[4045;1;3;3;15;11;31;113;91;303;907;1933;2167;7799;11821;20659];
[4054;1;3;1;15;27;17;21;41;99;137;1397;929;5819;11977;6201];
[4057;1;1;7;13;21;29;47;239;287;305;899;2711;1723;3315;199];
[4058;1;1;1;3;31;21;101;149;107;761;1197;1703;4803;8411;10649];
[4070;1;1;5;15;23;45;109;221;85;619;169;1013;3305;9451;26189];
[4101;1;3;5;13;7;57;19;153;231;627;565;1595;6309;5037;25505];
[4113;1;1;7;7;1;45;43;79;271;59;219;2255;1785;7919;24061];
[4114;1;3;7;5;31;57;57;231;33;227;531;679;1141;85;19777];
[4119;1;1;3;15;11;59;59;169;459;693;907;1191;3783;12809;6263];
[4129;1;1;7;13;19;21;105;65;267;141;1547;781;7295;13565;17775];
[4141;1;3;3;5;31;63;97;155;477;661;329;797;2539;4061;10537];
[4142;1;3;3;7;11;17;119;89;71;103;1043;413;6035;12829;11559];
[4147;1;3;1;9;5;19;53;185;103;629;2015;1257;5163;10581;13449];
[4149;1;1;1;5;23;35;25;129;179;959;677;2249;6315;12151;3459];
[4150;1;1;1;1;9;47;93;45;35;45;265;2065;6225;25;27135];
[4164;1;3;1;11;21;53;127;163;311;667;597;1561;4515;23;9551];
[4168;1;1;3;3;7;47;105;211;241;95;389;899;6001;8129;19889];
[4186;1;1;3;15;29;45;9;27;483;799;269;1811;4493;7109;22149];
[4198;1;1;3;3;29;5;57;205;187;615;1677;3987;4577;8799;16311];
[4207;1;1;5;3;15;5;91;101;319;445;1261;2039;4071;8249;11611];
[4221;1;3;7;11;19;17;1;185;153;579;1001;2031;2295;16335;24771];
[4225;1;3;3;15;13;45;93;185;319;667;1085;93;577;11551;11355];
[4231;1;1;7;13;3;61;45;191;51;981;1151;2715;2503;4147;4587];
[4238;1;1;3;3;27;17;71;141;57;981;1033;333;4639;15885;1039];
[4243;1;3;3;15;21;55;33;123;357;893;829;4045;5027;11727;13357];
[4249;1;1;1;9;31;47;27;223;311;205;179;3411;4019;10997;28115];
[4250;1;3;5;1;3;39;15;7;501;641;735;295;2005;12641;19779];
[4252;1;3;3;1;15;1;75;243;329;267;1323;2285;5389;11881;15737];
[4259;1;1;3;3;13;17;101;99;209;939;1147;3221;5159;3435;183];
[4279;1;1;1;1;27;43;29;179;179;659;807;313;4165;963;11317];
[4285;1;1;3;13;9;51;125;245;381;555;1383;3887;2045;12829;12029];
[4288;1;1;1;9;29;39;55;127;235;617;1553;3133;7735;14725;16733];
[4303;1;1;3;5;15;9;47;217;89;987;1083;1045;4745;12915;13719];
[4312;1;3;3;7;23;3;35;79;45;435;1549;2645;2831;10359;10041];
[4322;1;1;7;15;31;61;25;223;511;319;487;1677;739;7097;18417];
[4327;1;1;7;5;19;21;123;237;299;367;1341;1449;2949;8629;11051];
[4336;1;3;7;7;31;53;125;33;257;719;1297;895;5095;10237;12309];
[4359;1;3;1;5;31;59;73;211;97;209;1289;4033;6143;14275;7997];
[4384;1;1;5;7;31;5;75;105;389;985;9;4033;1185;7821;19083];
[4387;1;1;1;15;11;39;73;253;275;813;25;3441;2493;5873;3739];
[4401;1;3;7;1;31;19;119;5;109;397;1329;3347;5941;12449;2533];
[4407;1;1;1;1;5;59;61;175;435;985;65;3781;5425;15073;16361];
[4428;1;3;5;7;31;13;53;87;69;305;1455;273;2197;4277;24423];
[4436;1;3;3;15;13;13;91;171;71;583;15;3599;6801;10041;26097];
[4450;1;3;3;5;5;13;91;225;63;69;1795;341;461;5015;9471];
[4452;1;3;7;5;21;55;109;39;459;925;229;2855;5807;2117;31739];
[4459;1;1;3;3;1;5;17;177;401;727;1555;3097;1243;5933;14579];
[4461;1;1;7;3;19;19;37;87;105;73;197;4067;6237;10553;9207];
[4470;1;1;3;15;1;55;119;115;441;3;1003;1631;197;12929;25385];
[4483;1;3;7;11;31;1;119;49;467;647;685;2771;3689;11049;26787];
[4485;1;1;1;11;19;19;21;73;459;935;615;371;1099;14407;10375];
[4486;1;3;5;13;15;3;107;179;259;677;1101;315;7673;14639;11241];
[4492;1;1;7;9;15;21;93;25;349;23;1087;27;5691;12997;29301];
[4497;1;3;3;5;7;43;1;195;69;753;1315;2629;3259;5595;19439];
[4514;1;3;5;5;31;9;75;217;217;197;1925;2033;3585;15219;20251];
[4533;1;1;5;11;17;31;3;209;315;49;949;2267;4611;4375;16431];
[4537;1;1;7;9;17;35;13;115;119;553;1527;2857;3599;391;25101];
[4546;1;3;3;15;13;59;17;177;301;719;909;1663;5033;1129;529];
[4551;1;1;7;5;15;13;99;157;379;975;1019;2251;3807;10621;351];
[4555;1;3;3;13;5;57;5;31;361;981;883;3723;2259;5151;11783];
[4560;1;1;1;13;1;43;125;19;77;509;1817;3795;1863;8401;27253];
[4569;1;1;5;7;19;41;21;151;89;189;769;1937;4497;13607;24691];
[4576;1;1;1;9;21;9;1;195;31;907;1719;1549;809;13629;16597];
[4582;1;1;1;3;21;61;103;219;311;849;523;21;4533;6367;3935];
[4586;1;1;7;9;7;33;77;19;489;933;1729;1813;6741;10701;7];
[4609;1;1;1;5;23;53;43;63;453;209;1313;2847;2641;13783;14983];
[4610;1;3;7;7;15;45;83;241;509;659;213;221;5205;6019;18945];
[4612;1;1;5;9;25;43;37;9;191;505;765;295;953;1045;11203];
[4649;1;3;7;11;5;49;45;177;379;695;355;1711;7747;497;7597];
[4652;1;1;5;13;23;47;101;145;301;207;195;2225;8093;15345;14097];
[4672;1;3;7;13;9;9;55;223;343;921;1825;3281;2627;855;27651];
[4677;1;1;7;1;21;1;67;149;433;111;577;3675;495;9043;23613];
[4684;1;3;1;13;9;39;37;73;117;559;1131;2511;7599;8393;24747];
[4690;1;3;3;7;11;15;85;229;7;21;1649;739;375;13991;27053];
[4695;1;1;5;5;15;41;49;117;173;825;1343;377;1789;12519;30667];
[4696;1;1;7;15;9;11;97;99;347;729;9;1703;1177;5189;9061];
[4702;1;1;5;11;15;25;99;63;89;675;561;215;8111;3955;24635];
[4705;1;1;1;1;7;53;99;193;233;731;733;1883;7783;14413;14003];
[4717;1;3;5;7;31;23;45;153;337;293;443;2301;5135;7455;13123];
[4726;1;3;1;3;23;53;23;165;53;875;1543;1035;4247;5101;28445];
[4736;1;1;1;15;13;41;77;93;205;743;1101;1413;2371;7183;12337];
[4753;1;1;3;15;17;63;25;101;147;149;1207;3525;2661;9539;11145];
[4754;1;3;1;9;17;5;3;35;389;909;1017;2803;5243;13025;8851];
[4756;1;1;7;15;19;27;69;91;71;547;1421;831;6969;5517;28233];
[4775;1;1;3;3;17;45;55;63;263;819;1211;2739;655;13269;22281];
[4801;1;3;1;5;23;13;81;251;83;551;491;1029;3561;357;23393];
[4819;1;3;1;13;25;27;93;143;407;403;1395;1733;3187;1917;31453];
[4828;1;1;7;13;3;21;85;113;483;461;1343;561;2081;10857;24253];
[4838;1;1;1;1;11;11;53;135;25;163;1729;617;1533;10881;16041];
[4852;1;1;5;1;3;49;125;139;77;891;815;3431;4875;12513;4595];
[4856;1;1;1;1;27;63;111;109;421;425;345;1613;5447;1357;32413];
[4873;1;3;5;3;17;5;37;171;259;281;1003;2901;3241;15557;21415];
[4887;1;1;5;11;15;55;75;199;493;215;1625;2345;7873;2325;11003];
[4891;1;3;7;1;21;33;23;5;495;941;1185;475;5799;15161;10677];
[4904;1;1;5;9;31;37;37;29;217;389;297;3097;7319;2601;15307];
[4912;1;3;7;5;7;45;111;167;297;275;1669;2489;1511;15753;1289];
[4921;1;3;1;7;3;45;19;11;189;199;1227;2647;1897;9077;17189];
[4936;1;1;1;13;15;39;19;179;147;341;283;3029;7599;8937;18761];
[4941;1;3;3;9;3;11;41;255;365;835;921;389;919;15223;14541];
[4942;1;1;3;3;5;37;29;203;313;271;1207;487;3711;3811;26757];
[4963;1;3;7;9;19;53;49;139;351;537;1681;1595;5399;13839;28685];
[4984;1;3;1;1;15;35;21;37;247;891;1855;1243;3137;10381;30379];
[4990;1;3;7;5;9;47;91;25;479;337;781;3545;1045;9491;22853];
[5005;1;1;5;15;19;31;81;5;117;923;565;2443;7383;1795;11685];
[5013;1;3;3;5;17;15;21;245;489;889;2047;2737;7445;14785;13401];
[5020;1;1;1;15;19;45;67;117;299;607;953;743;6863;12123;6701];
[5039;1;1;3;1;1;43;19;129;345;861;209;2387;7205;7131;8235];
[5048;1;3;5;1;1;13;75;99;333;157;23;1217;1857;15479;16031];
[5062;1;3;3;11;7;61;119;89;491;401;227;1739;3807;16003;2875];
[5080;1;3;7;15;13;55;3;159;405;593;975;361;2563;6061;28087];
[5085;1;1;3;13;19;5;5;9;119;41;33;1111;4443;4663;28841];
[5086;1;1;7;7;25;59;125;255;49;947;1673;2947;6369;2267;8813];
[5095;1;1;5;15;25;25;111;193;217;193;821;2779;69;2957;27043];
[5096;1;3;5;7;21;19;51;157;203;487;1745;1875;911;14071;7557];
[5102;1;1;5;9;3;15;55;73;313;245;1061;1929;3035;607;11563];
[5107;1;1;5;7;3;57;105;121;461;43;803;1801;4059;2157;17547];
[5141;1;3;7;7;19;11;1;121;499;841;601;3515;2969;13697;8917];
[5145;1;3;3;3;13;35;113;231;391;689;697;2871;7387;715;27005];
[5148;1;1;1;13;19;5;17;43;175;291;987;1917;7635;15655;10689];
[5157;1;1;7;15;19;37;121;243;125;623;1231;29;2325;5147;21435];
[5158;1;3;5;15;25;27;57;187;77;401;1489;2977;5415;3381;2551];
[5162;1;1;1;7;1;1;85;27;115;559;9;2365;711;5733;2819];
[5172;1;3;1;15;9;29;61;113;169;349;591;1061;6041;7613;23691];
[5182;1;1;5;1;13;45;49;227;345;563;87;3597;3961;7205;8441];
[5184;1;1;1;5;3;21;121;183;463;83;1365;539;1485;10063;24867];
[5193;1;3;5;5;3;61;101;237;41;147;1907;3049;7583;8283;6099];
[5199;1;3;1;15;31;57;19;155;445;805;1793;207;1975;3357;14281];
[5201;1;1;7;13;9;39;27;73;165;345;543;4095;133;10469;11573];
[5204;1;1;7;15;17;57;99;81;359;367;1057;1173;4225;15127;2615];
[5211;1;3;5;3;31;23;113;111;495;947;1625;1195;2053;1509;1347];
[5223;1;1;5;5;9;47;25;63;455;107;771;3815;3827;16287;11615];
[5230;1;1;7;9;17;61;51;215;63;123;1253;3927;721;9647;3283];
[5232;1;1;5;15;11;17;83;255;473;107;681;763;7855;8043;31503];
[5253;1;3;1;7;7;31;37;5;253;155;2017;609;1421;14927;25241];
[5257;1;3;3;13;31;25;21;241;431;193;681;2265;5091;11479;21443];
[5260;1;3;5;5;15;9;49;255;157;995;631;1995;3605;9085;24245];
[5284;1;3;3;7;19;31;85;153;493;951;451;1587;6609;3681;13205];
[5306;1;1;5;1;17;41;107;231;307;361;575;3239;3443;16159;20625];
[5331;1;1;7;9;31;49;93;79;181;117;1241;3645;4901;12599;13247];
[5334;1;3;3;9;7;31;127;201;11;199;1851;23;5667;8159;20951];
[5364;1;3;3;7;3;37;29;189;65;461;769;321;6577;16223;16865];
[5367;1;1;5;11;1;13;91;167;33;111;1445;1047;2479;12623;22893];
[5371;1;1;3;1;3;1;47;185;329;903;1651;3005;907;1255;8303];
[5382;1;3;5;13;19;31;5;233;265;769;1303;2503;2229;14019;20257];
[5386;1;3;7;3;27;11;67;195;5;661;125;3761;7211;16043;7267];
[5399;1;1;1;3;27;13;115;25;473;417;1751;2223;2099;5913;14273];
[5400;1;3;7;15;13;53;99;115;225;737;1621;539;4131;471;31865];
[5409;1;1;5;5;25;19;39;207;153;569;1755;2477;3065;7383;29919];
[5415;1;3;5;11;13;59;33;3;435;273;701;3819;7291;11803;26111];
[5416;1;1;3;9;29;19;71;59;93;1019;887;83;4675;7541;26821];
[5424;1;3;1;3;21;53;71;73;43;321;1581;1399;4043;12995;16825];
[5436;1;3;7;15;3;13;37;11;93;873;1193;3481;451;15869;17879];
[5454;1;3;1;11;31;19;101;57;129;753;853;463;6757;11083;8667];
[5462;1;3;5;15;25;41;25;197;235;609;905;993;3233;1935;24661];
[5468;1;3;1;5;21;7;53;107;473;77;1135;1045;4933;5615;15931];
[5481;1;3;7;11;3;9;105;183;151;527;425;975;4073;913;2793];
[5505;1;1;7;13;19;61;81;9;413;851;1723;1113;1453;8635;3353];
[5511;1;3;7;15;19;53;83;31;441;343;575;935;4543;1303;12567];
[5518;1;1;1;5;29;19;119;75;3;591;845;649;1717;13695;26905];
[5530;1;1;7;9;5;53;127;191;15;773;1433;2899;21;4977;17839];
[5532;1;1;5;9;21;9;99;115;397;99;725;3835;973;1219;21159];
[5539;1;3;5;3;7;39;29;93;303;913;981;3549;5225;10907;393];
[5553;1;3;3;11;9;25;105;101;1;867;389;2241;773;14123;10015];
[5573;1;1;5;1;1;37;117;213;391;779;1851;1485;1277;5607;819];
[5580;1;3;7;1;3;5;43;47;483;367;749;1693;4961;15257;3775];
[5597;1;3;3;1;27;11;21;83;437;379;1041;393;5611;2421;31739];
[5602;1;3;5;7;19;1;79;63;53;201;1159;2501;6327;11317;9537];
[5608;1;3;5;13;9;37;61;217;427;913;1311;3503;5473;10583;19723];
[5611;1;1;3;9;11;29;121;175;141;515;925;837;6011;10419;32157];
[5613;1;3;5;9;27;57;97;175;365;367;1737;3845;1257;12243;2201];
[5625;1;3;3;9;23;1;53;123;127;333;1335;707;5747;6541;9809];
[5632;1;3;1;9;17;37;101;41;91;61;433;979;4345;12351;10829];
[5635;1;3;3;13;3;21;15;49;257;99;1793;2987;5233;11625;28069];
[5638;1;1;7;11;21;13;89;11;135;153;783;2893;6815;12007;15605];
[5652;1;3;7;13;5;61;73;5;269;699;925;2925;5919;5841;24875];
[5659;1;3;5;5;25;45;43;93;15;927;1253;319;1173;14559;20221];
[5677;1;1;3;3;27;45;9;103;447;627;1239;3869;2169;49;17917];
[5686;1;3;7;7;11;9;1;1;1;527;825;3295;623;2095;10537];
[5689;1;3;3;11;21;11;59;165;33;743;1461;1535;6393;1301;17823];
[5698;1;1;7;3;19;43;47;245;469;551;1447;1963;169;1481;31925];
[5703;1;1;3;1;11;21;51;7;251;199;1153;767;6417;3417;30171];
[5707;1;3;7;1;31;5;41;103;447;263;211;2029;8021;4705;10579];
[5731;1;1;3;5;17;25;55;75;393;107;2017;2389;1685;14021;9161];
[5738;1;1;1;9;13;1;75;237;205;461;689;2531;2839;13925;23351];
[5743;1;3;7;1;23;39;33;189;157;571;239;1053;1559;1685;23059];
[5748;1;3;3;3;27;61;71;121;49;157;1341;1707;2417;11689;26507];
[5758;1;3;7;7;19;63;47;53;95;791;1467;1273;2045;755;8555];
[5762;1;1;3;15;27;33;21;253;317;153;1509;1765;3809;601;5907];
[5768;1;3;5;15;11;17;97;91;165;199;1751;2135;1315;3077;29995];
[5773;1;3;1;5;3;33;93;49;39;743;341;2549;7603;3369;30889];
[5776;1;1;3;13;3;5;87;63;293;785;1591;675;3915;2209;18201];
[5815;1;3;3;11;3;15;69;231;241;127;429;2201;8173;12549;25745];
[5841;1;1;5;11;15;39;3;29;125;685;643;1385;829;7347;28793];
[5847;1;1;7;15;27;15;59;237;299;773;1097;3875;6503;7129;28495];
[5860;1;3;5;13;9;17;31;227;69;443;1633;525;1659;14681;15209];
[5870;1;3;5;5;13;51;69;173;111;433;279;2145;2091;9741;24881];
[5875;1;3;1;7;7;35;55;51;357;99;1789;333;2073;10151;14527];
[5877;1;3;3;7;13;41;101;87;425;701;1143;2733;6473;8667;17419];
[5884;1;1;5;5;25;29;63;31;385;537;563;607;6723;9251;6531];
[5892;1;3;5;5;9;63;111;131;239;723;705;2805;6579;12691;17521];
[5902;1;3;1;7;31;55;101;225;477;271;611;3179;7859;9835;2165];
[5910;1;1;3;3;5;15;81;127;391;333;419;1091;5997;12315;31521];
[5916;1;3;5;15;23;7;35;109;181;295;825;419;969;15753;9365];
[5919;1;3;5;5;25;23;69;177;325;359;1577;619;6233;11753;8103];
[5935;1;3;5;11;31;13;79;61;241;1011;1961;949;6211;497;7099];
[5937;1;3;5;3;25;19;67;235;337;1015;1485;355;3653;12735;14503];
[5944;1;3;5;7;31;23;35;231;147;15;263;1995;431;5941;18931];
[5947;1;3;3;7;1;35;37;7;85;443;715;743;2189;12537;17427];
[5958;1;1;3;1;7;41;1;209;121;929;661;3999;955;5123;31115];
[5962;1;1;3;5;11;43;127;125;107;293;273;2071;3003;11631;7769];
[5969;1;1;1;13;13;29;39;217;111;779;1287;1675;4201;4869;20403];
[5981;1;1;3;15;25;53;25;135;389;925;1971;663;7545;2673;7725];
[5995;1;1;5;13;3;59;97;91;357;45;947;3031;8095;6269;13975];
[5998;1;1;5;15;25;31;1;171;375;939;507;3591;1089;13605;2813];
[6003;1;1;3;7;25;21;41;131;147;737;9;1603;1859;11573;28397];
[6010;1;3;3;9;21;9;59;27;169;875;711;1389;2899;7937;4173];
[6016;1;1;5;9;13;29;71;39;51;337;1067;2661;1203;5967;19249];
[6025;1;3;7;1;17;21;43;79;181;741;1901;3445;7171;2109;1589];
[6031;1;1;3;9;23;37;105;51;227;775;1265;2987;2197;13903;28891];
[6036;1;1;1;13;23;47;111;41;93;261;75;2155;4301;11517;16101];
[6039;1;1;3;3;27;27;123;125;501;775;413;1065;7607;15065;26013];
[6045;1;3;7;3;27;11;59;87;207;743;1765;2969;913;8101;11583];
[6049;1;3;3;1;23;7;113;17;285;993;695;2399;5019;4779;28917];
[6052;1;3;1;5;11;51;49;139;213;435;1475;2209;6695;12981;9851];
[6067;1;3;5;7;1;63;31;151;173;767;1453;1497;6911;9597;25551];
[6074;1;1;7;7;21;53;39;159;389;231;309;359;7701;14819;5175];
[6087;1;1;1;1;11;47;83;29;247;89;369;2727;3103;14421;17369];
[6101;1;3;1;5;25;25;111;245;239;755;113;1765;3583;917;403];
[6121;1;3;3;3;5;59;85;151;463;591;743;3767;121;2927;11031];
[6129;1;3;5;9;11;39;77;161;275;233;1991;2683;6545;2423;32113];
[6142;1;3;5;11;5;57;13;229;329;757;1863;3959;4243;7265;15599];
[6151;1;1;1;1;1;23;19;67;453;593;2011;1813;4695;8903;9623];
[6157;1;3;3;7;1;29;103;255;493;647;1709;4065;4199;949;28829];
[6166;1;1;7;9;3;55;53;33;5;223;423;3347;7647;7211;25157];
[6170;1;3;5;13;3;43;79;255;471;573;1007;2119;6731;10047;23179];
[6175;1;1;1;3;7;39;55;61;53;377;435;401;3307;12621;14299];
[6186;1;3;3;7;21;31;67;17;243;425;747;2995;1389;2557;18415];
[6203;1;3;1;3;3;39;75;11;447;249;1135;1011;1657;10767;19501];
[6217;1;3;1;11;17;51;117;129;17;143;785;103;5049;14703;28479];
[6231;1;3;7;5;13;17;75;255;75;661;1175;477;1811;1479;15783];
[6241;1;3;7;9;11;57;101;77;431;247;997;3657;5117;6815;3841];
[6242;1;1;5;1;17;21;101;183;209;69;299;1585;6381;12983;10053];
[6248;1;1;7;3;5;13;21;63;83;857;749;1251;5363;9629;16563];
[6256;1;3;3;9;3;59;9;45;55;489;137;2423;2661;12111;4375];
[6265;1;1;5;9;23;9;41;177;447;671;1631;3115;4215;14435;8743];
[6275;1;3;7;11;19;23;15;221;413;783;1247;2343;4397;3145;32043];
[6277;1;3;3;1;31;55;31;87;333;849;1777;343;5199;1507;11621];
[6302;1;3;7;3;17;57;63;63;111;977;631;3019;2953;14273;29209];
[6315;1;3;1;13;9;39;87;15;397;185;701;1487;3807;13727;19883];
[6318;1;3;7;1;17;57;57;157;119;181;899;353;3603;15041;7421];
[6330;1;1;7;3;29;13;29;191;105;373;961;1991;5531;6793;29497];
[6343;1;3;3;11;7;61;65;39;215;187;191;1651;2481;3951;24965];
[6347;1;1;7;5;25;11;105;23;257;771;1359;2837;7821;12223;28033];
[6350;1;3;5;11;3;3;23;139;407;885;1679;2979;8149;14281;12487];
[6352;1;3;7;3;21;45;13;85;249;1015;2023;1429;965;7091;31721];
[6371;1;1;1;13;19;5;119;47;91;285;211;2607;4287;9197;455];
[6383;1;3;1;1;9;59;25;137;121;287;577;3325;2365;8823;5033];
[6386;1;3;3;13;25;63;99;43;15;855;245;3189;59;5181;21299];
[6405;1;3;5;11;7;9;41;157;359;773;1347;2049;4589;13731;32133];
[6409;1;1;7;11;31;37;83;105;183;375;79;1821;1989;15199;22207];
[6410;1;1;5;3;23;37;127;9;467;651;993;69;6943;4093;20871];
[6433;1;1;3;15;31;49;123;149;211;371;1825;3011;485;1251;17343];
[6436;1;1;1;15;11;33;127;251;89;317;1869;219;2275;14201;27063];
[6439;1;1;5;5;19;5;81;35;233;95;9;863;725;11095;16217];
[6463;1;1;1;15;23;47;51;43;169;637;865;57;1509;1683;7587];
[6468;1;3;1;3;7;7;117;187;273;303;717;3091;2083;3315;647];
[6477;1;1;5;15;13;27;23;227;145;547;1783;987;6895;7135;11023];
[6496;1;1;5;11;21;39;57;203;477;17;985;1729;4297;7483;13263];
[6511;1;3;7;9;3;49;71;45;143;967;39;583;2123;5165;17437];
[6516;1;1;1;9;21;51;71;163;441;709;397;445;6167;7753;11513];
[6519;1;1;7;7;27;35;5;181;449;53;621;3401;5263;4557;9141];
[6523;1;1;5;7;7;37;83;111;485;881;465;3371;5603;371;29393];
[6530;1;3;1;15;7;47;41;245;377;823;309;3929;2159;13917;13365];
[6539;1;3;7;7;7;29;25;141;19;611;79;2689;109;12321;8345];
[6547;1;1;1;13;3;53;113;151;381;791;137;3185;3567;211;597];
[6589;1;1;3;9;7;53;87;89;491;861;467;3763;2025;4187;9637];
[6592;1;1;7;1;27;33;71;41;63;1011;741;1135;175;3739;21493];
[6601;1;3;3;5;9;19;55;175;325;55;1193;1423;2049;9633;17515];
[6610;1;1;3;1;27;55;69;103;401;707;825;399;6799;13199;6295];
[6616;1;3;7;3;19;63;25;151;17;159;1673;615;6317;13261;26267];
[6619;1;3;7;9;27;1;77;129;423;647;707;2579;3525;6723;31615];
[6626;1;3;3;7;7;31;35;241;309;369;895;3683;4795;11319;451];
[6635;1;3;5;7;17;7;117;141;267;713;569;1915;4369;7793;30853];
[6637;1;3;7;1;29;61;81;73;413;13;1977;3229;5853;8451;15539];
[6638;1;3;7;1;5;45;109;21;431;487;2019;2647;927;16015;10711];
[6652;1;3;1;3;11;19;37;183;451;377;269;3993;3229;4899;26561];
[6656;1;3;1;11;5;19;121;55;57;117;687;83;3047;1367;17595];
[6662;1;3;1;7;17;31;41;219;239;963;199;2895;5599;7639;17201];
[6689;1;3;3;5;27;53;71;183;509;771;1809;1539;2229;4893;17115];
[6699;1;1;3;9;9;9;13;49;265;643;1929;859;497;9797;27771];
[6710;1;3;7;11;19;39;115;139;207;903;963;1849;4403;6229;10021];
[6714;1;3;7;13;3;57;99;223;503;423;1755;807;1885;213;18723];
[6719;1;3;7;15;11;15;111;193;243;599;593;3385;5393;15073;17777];
[6739;1;1;5;3;19;63;121;207;99;435;1961;2747;6405;3971;23481];
[6751;1;3;5;13;9;29;79;131;415;49;229;1003;3263;12975;15987];
[6775;1;1;3;7;1;41;127;155;29;73;963;659;2741;3465;2595];
[6779;1;1;3;5;23;23;93;233;113;521;427;1557;6917;12953;22441];
[6788;1;1;5;13;5;25;85;191;387;69;955;243;4473;9813;21711];
[6798;1;3;3;7;1;53;95;65;231;995;539;2103;5513;14087;28655];
[6815;1;3;5;3;17;13;19;227;197;91;1437;1121;3307;6903;3297];
[6819;1;1;5;11;31;29;109;171;257;783;861;9;4895;1859;10909];
[6825;1;1;7;13;5;47;61;5;363;351;1525;823;2883;12435;17629];
[6826;1;1;5;11;9;3;69;159;371;477;1223;1973;2757;413;31223];
[6836;1;1;3;5;23;45;43;195;423;829;1673;1563;6633;14775;21097];
[6843;1;1;3;3;13;9;107;209;49;609;1047;3691;7483;4269;7557];
[6845;1;1;3;15;3;43;73;161;53;813;325;3439;7009;8691;11711];
[6858;1;1;3;3;23;45;99;61;407;15;1515;1557;953;8567;13729];
[6868;1;1;5;9;31;35;117;57;227;923;1373;1811;3405;11979;10149];
[6877;1;1;3;9;15;53;105;209;153;67;1477;667;3077;4911;3871];
[6881;1;1;3;3;21;53;93;101;183;1023;3;3041;5815;9043;5801];
[6891;1;3;3;5;17;49;127;161;321;869;1369;923;3235;711;30007];
[6896;1;1;3;3;15;17;97;229;389;159;1075;2001;7905;15191;14693];
[6899;1;1;5;11;5;5;121;173;95;173;1883;3915;1439;9981;24375];
[6901;1;3;3;1;31;53;29;189;37;623;217;949;3959;7189;25427];
[6908;1;3;5;9;21;45;101;23;355;729;797;2317;2931;7433;29175];
[6914;1;3;7;1;1;63;63;155;237;865;1169;43;7335;6445;7979];
[6916;1;3;7;7;11;51;37;199;503;991;319;3013;7885;12837;32419];
[6923;1;3;7;7;27;31;101;243;37;811;1909;109;6455;7903;11821];
[6925;1;1;3;13;23;21;89;99;243;605;1017;1871;1101;12825;8227];
[6928;1;3;3;13;19;3;51;59;501;605;385;2189;3229;7981;31407];
[6931;1;1;1;1;25;11;127;215;295;237;1245;3657;7803;3897;655];
[6934;1;1;7;7;5;9;63;129;143;417;795;3409;2847;5887;3093];
[6937;1;3;3;13;7;57;67;57;5;847;1185;3349;4841;11457;8857];
[6938;1;1;3;3;9;53;51;43;85;437;13;2543;3651;15493;767];
[6949;1;1;7;9;1;49;97;115;133;1011;1399;2653;7765;13999;12097];
[6956;1;1;5;1;3;27;123;107;389;401;1759;1333;1371;5277;14865];
[6973;1;1;5;1;13;23;3;123;137;821;399;1671;3095;3121;31387];
[6976;1;1;5;3;7;35;57;237;509;753;1783;2815;6495;13283;7091];
[6981;1;1;7;11;5;37;77;109;7;969;1087;3705;1695;14223;28959];
[6988;1;3;1;11;25;5;25;163;179;185;671;1031;4537;11601;9323];
[6999;1;1;3;7;17;25;49;221;183;619;1953;343;4523;14883;6833];
[7016;1;3;7;5;27;19;59;153;11;807;513;3019;6875;5307;8405];
[7027;1;1;1;13;25;41;21;109;321;135;497;1235;5177;5167;18609];
[7029;1;1;7;5;21;53;25;197;411;503;1009;1921;4305;2633;31415];
[7055;1;3;5;1;25;45;27;227;271;903;639;3805;657;8683;29585];
[7058;1;1;5;3;9;49;37;35;351;491;851;2983;31;5619;6919];
[7074;1;1;5;3;11;49;33;153;393;1017;1561;2795;4435;12589;22349];
[7083;1;1;1;15;17;29;49;245;217;359;1133;393;3317;415;16407];
[7093;1;1;3;5;3;9;95;63;319;319;1009;19;6453;16279;6975];
[7100;1;1;5;9;3;25;67;95;369;237;285;2409;671;5143;121];
[7105;1;1;3;1;9;49;35;87;317;185;445;2263;7923;10183;26615];
[7112;1;3;3;11;9;59;29;135;129;477;353;3571;1057;16329;23523];
[7118;1;1;1;15;13;11;19;5;133;827;1799;1893;1939;1101;12147];
[7120;1;1;3;3;15;49;33;185;511;1013;41;3499;6235;7643;16725];
[7129;1;1;5;11;27;45;89;157;63;137;2047;1275;4995;625;6111];
[7166;1;3;7;11;3;1;121;1;341;33;1895;3033;3929;10257;21037];
[7207;1;3;3;11;7;11;117;5;115;287;335;3415;5397;15065;19121];
[7216;1;3;3;13;21;25;15;125;277;125;801;3761;2623;11333;16867];
[7226;1;3;5;11;19;33;21;71;499;747;1515;185;1759;14623;895];
[7234;1;3;7;1;29;35;9;203;277;299;1509;2017;2897;14175;1643];
[7236;1;3;5;11;7;47;111;197;459;941;1619;2119;2191;11049;6811];
[7246;1;1;5;9;7;43;103;115;87;269;1235;77;5887;1611;29041];
[7248;1;1;5;7;1;61;83;225;179;81;1145;2403;1485;8967;20607];
[7254;1;3;3;1;25;47;27;157;359;803;1683;1995;6445;13113;17899];
[7263;1;3;1;7;21;37;43;119;245;49;1581;2275;3311;4087;29765];
[7273;1;1;3;13;5;33;49;191;455;105;665;3855;3207;2671;32203];
[7274;1;3;1;1;25;63;19;217;17;353;947;1951;4097;9041;11921];
[7293;1;3;1;7;21;31;113;97;347;993;1799;3831;3711;6193;1235];
[7297;1;1;1;5;3;63;11;203;425;445;1361;531;1265;1755;11685];
[7310;1;3;1;7;13;29;23;85;57;467;1835;133;7961;4175;2445];
[7315;1;1;1;15;23;27;37;5;123;913;1293;1633;3113;5413;26407];
[7317;1;1;5;13;27;1;121;151;303;931;375;3679;1863;12301;30907];
[7331;1;3;1;9;31;9;49;203;177;937;1503;933;5867;12533;13621];
[7338;1;3;3;15;1;41;23;191;191;931;837;3553;2611;4735;18105];
[7340;1;1;5;7;27;49;51;111;435;195;1229;711;7145;14571;31707];
[7346;1;1;7;7;3;41;59;203;291;903;1727;2757;1463;6287;31535];
[7355;1;1;7;13;23;5;75;3;207;525;411;2133;2231;477;7155];
[7366;1;3;5;7;13;19;111;225;489;83;1177;4077;4617;14413;7133];
[7383;1;3;1;7;9;59;3;113;379;803;1289;3347;4127;6669;14867];
[7389;1;3;7;3;31;37;87;79;399;749;995;1611;3137;12543;31955];
[7393;1;1;5;7;21;59;49;45;511;639;1033;2169;3265;15001;10745];
[7396;1;1;5;1;25;19;23;203;11;883;1031;4087;5059;11321;21675];
[7400;1;3;7;5;11;27;33;205;163;289;501;3505;1515;1895;15889];
[7414;1;3;1;1;23;7;39;239;29;119;1499;2071;6495;12107;5339];
[7417;1;3;1;1;23;29;55;181;327;905;427;1033;427;3687;5367];
[7426;1;3;3;7;21;27;115;127;393;855;1291;2121;381;9995;29757];
[7432;1;3;5;1;25;13;15;183;269;1005;1531;3451;3975;9479;23695];
[7452;1;3;7;7;19;31;111;97;33;179;1343;2069;977;5043;9129];
[7468;1;3;1;5;17;57;99;129;379;829;837;1845;3613;7351;19291];
[7488;1;3;3;5;31;23;119;229;135;389;9;705;6697;15441;5303];
[7491;1;1;1;11;25;31;105;95;5;931;789;375;7543;9957;28627];
[7494;1;1;7;15;21;17;19;103;389;545;1725;2867;4251;3829;6907];
[7497;1;3;7;7;15;37;97;65;337;409;1649;2869;7929;8905;21989];
[7515;1;3;5;3;11;15;69;29;353;207;233;411;2047;10303;31655];
[7531;1;3;3;7;27;43;125;107;69;981;215;1955;3589;597;12703];
[7552;1;1;7;9;25;13;109;73;227;663;1115;285;471;3359;15787];
[7562;1;3;7;5;1;45;7;79;441;149;701;1457;6595;14829;20865];
[7564;1;3;7;15;15;47;83;239;295;23;1085;813;1209;3573;2855];
[7569;1;1;3;15;13;7;59;67;255;537;1841;3857;6821;15175;13997];
[7582;1;3;1;1;9;57;59;21;21;41;1693;2805;7953;1389;14105];
[7585;1;3;5;15;19;49;107;117;99;607;145;53;1863;9383;12029];
[7588;1;3;3;13;1;39;5;141;503;265;281;1785;2673;6597;6333];
[7592;1;1;5;3;3;19;3;181;169;269;955;2399;3157;11053;8563];
[7597;1;3;3;13;11;1;95;43;179;507;443;209;3239;14239;21829];
[7603;1;1;7;9;3;17;99;179;445;479;1897;1507;5753;4757;2135];
[7610;1;3;3;1;9;51;29;13;295;291;927;85;5707;7447;32319];
[7624;1;1;1;3;13;11;21;157;213;327;1071;591;2639;15405;6617];
[7642;1;3;5;1;7;25;55;47;495;681;727;2707;2955;705;7489];
[7647;1;1;3;9;17;3;73;67;465;367;1473;3195;7825;5299;1817];
[7653;1;1;1;1;19;31;77;253;71;599;1601;871;2243;6699;13013];
[7654;1;1;7;9;21;1;71;115;5;65;767;925;7901;10761;19431];
[7666;1;3;1;7;23;31;31;15;105;391;585;2995;2635;10607;24951];
[7668;1;3;3;1;19;25;71;211;41;197;787;225;6781;813;10117];
[7684;1;3;3;3;17;29;3;153;231;643;1151;447;3699;9625;26677];
[7705;1;1;5;9;1;25;71;21;395;297;557;3841;233;1877;4569];
[7732;1;1;3;13;1;45;115;61;5;937;173;2109;2927;9599;9155];
[7741;1;1;3;3;15;21;61;121;253;285;1083;3545;5537;6773;2629];
[7749;1;3;3;15;13;63;33;77;49;849;1795;2771;5481;9833;603];
[7750;1;1;7;5;1;39;113;237;225;1005;1687;2297;3213;2605;14669];
[7759;1;1;3;1;11;1;39;23;67;441;1235;2545;3139;15901;29243];
[7764;1;3;1;3;15;49;39;57;311;345;525;223;4923;6311;25275];
[7777;1;1;5;7;9;13;69;11;349;423;1773;1055;1001;9359;17025];
[7790;1;1;1;13;15;63;89;207;335;591;1223;2701;55;12471;13127];
[7817;1;1;3;5;15;19;83;67;407;113;1961;779;5803;12417;21751];
[7826;1;3;3;1;21;53;81;95;405;427;1047;2443;4153;5843;22511];
[7831;1;1;7;7;7;25;115;155;453;537;741;2379;2343;16035;19587];
[7859;1;3;3;11;27;21;111;121;503;437;803;3399;5303;10163;18199];
[7871;1;1;5;13;19;27;7;81;259;545;965;743;4533;8813;21253];
[7873;1;1;5;5;1;59;37;11;105;343;75;1319;6317;9593;1699];
[7876;1;3;1;9;13;9;115;131;387;1023;253;693;5191;12777;10565];
[7900;1;3;1;15;7;35;111;195;287;305;533;1901;3363;10085;30791];
[7904;1;1;3;9;27;51;21;77;413;925;717;791;4147;585;5649];
[7913;1;3;3;5;25;59;79;249;185;567;71;1997;7373;2327;18637];
[7916;1;3;3;11;15;21;97;99;391;57;1973;29;7451;2529;25737];
[7922;1;3;7;5;7;59;93;5;287;469;1639;3637;5465;14431;32265];
[7946;1;1;3;11;3;1;71;75;427;299;811;3697;3529;5433;26957];
[7953;1;3;1;9;19;59;37;255;165;1005;19;2851;4309;455;9485];
[7956;1;1;1;5;1;55;15;233;133;47;1831;713;2601;1017;3201];
[7963;1;1;5;5;21;55;127;69;377;41;25;2295;7595;4733;11615];
[7979;1;1;5;3;23;5;7;181;161;775;1095;2271;6637;14489;6873];
[7981;1;3;5;9;9;15;5;133;357;21;127;2685;6299;4363;17573];
[7984;1;3;3;9;13;39;51;223;201;401;1839;2461;7633;6039;10445];
[7989;1;1;5;1;9;21;19;249;227;359;255;2895;4117;2073;27687];
[7999;1;1;5;15;5;61;113;161;95;3;877;2775;293;6655;4023];
[8001;1;3;7;1;7;55;73;39;295;403;985;2315;1667;13525;1453];
[8021;1;1;5;1;27;1;85;195;11;713;1841;3895;3131;2193;17607];
[8056;1;3;5;13;25;1;119;97;239;167;1393;1753;6989;12155;12509];
[8080;1;1;7;15;31;21;41;255;425;445;165;2097;5627;4971;13207];
[8083;1;1;1;15;13;33;81;105;453;197;13;1547;7381;8709;15103];
[8089;1;1;3;11;11;33;107;123;483;367;121;995;1911;8205;22577];
[8090;1;1;1;9;9;43;71;49;273;431;1705;3313;4259;16291;14345];
[8114;1;1;1;7;3;1;43;213;97;547;1559;1149;2791;3751;887];
[8128;1;1;3;15;25;47;49;251;425;35;295;3767;6305;9633;5045];
[8133;1;3;3;1;5;55;91;245;27;981;331;555;6553;11017;15289];
[8145;1;1;3;7;1;23;23;155;223;565;1005;3211;3847;7479;3643];
[8155;1;1;5;1;17;7;47;95;35;779;1685;2099;7505;15425;18089];
[8161;1;3;3;7;3;63;83;151;211;147;611;1171;1681;7687;13423];
[8182;1;3;3;1;3;27;107;117;497;537;195;3075;2753;1665;19399];
[8186;1;1;1;7;23;5;103;209;117;845;1243;1283;4253;9723;20937];
[8191;1;3;1;1;5;49;7;13;419;125;287;1599;8161;1275;24661];
[8192;1;3;3;3;13;63;23;183;39;979;1301;2349;905;15805;30151];
[8195;1;1;3;9;17;11;97;189;189;511;1779;2077;6891;11623;23949];
[8201;1;1;7;11;13;45;15;37;11;853;915;1569;6103;10633;3137];
[8207;1;3;3;5;15;61;91;255;131;821;1755;1501;2663;1747;941];
[8210;1;1;3;7;19;19;65;95;499;239;2023;3185;4649;3861;3767];
[8228;1;3;5;15;15;63;55;93;127;303;171;1763;4991;9479;9917];
[8249;1;3;7;5;31;53;111;35;433;163;1903;3991;3585;643;21941];
[8252;1;3;1;9;27;39;67;89;487;349;587;1723;4311;11321;25785];
[8258;1;3;5;7;1;63;23;237;507;689;1341;441;1721;843;20335];
[8267;1;1;3;3;31;63;83;103;25;799;1379;1817;3809;12285;16673];
[8270;1;1;5;3;25;29;99;193;21;549;33;3109;4135;10071;32355];
[8275;1;3;1;7;13;27;83;189;121;167;379;1503;7955;13189;313];
[8284;1;3;5;15;25;19;83;87;257;237;709;1169;1561;7117;4785];
[8293;1;1;1;7;9;55;21;5;439;367;403;2311;6243;8349;13127];
[8298;1;3;7;3;5;35;51;67;453;767;29;3293;6665;11459;2799];
[8305;1;3;3;3;5;19;59;7;367;683;783;1317;7119;6129;19525];
[8317;1;1;5;5;5;19;61;67;381;291;875;2179;2481;9325;11253];
[8328;1;3;5;5;7;47;107;9;141;667;1989;821;3909;1733;10187];
[8336;1;1;7;7;31;61;1;71;477;689;1539;3617;8105;6535;3293];
[8345;1;1;5;5;23;9;103;197;241;249;297;3607;6217;1673;30103];
[8351;1;3;1;5;23;15;115;105;365;51;825;2687;359;16325;15083];
[8367;1;1;3;11;29;45;65;251;169;189;1243;2345;1345;14471;25631];
[8379;1;1;5;9;7;63;81;167;309;539;1169;3949;4193;12047;1491];
[8381;1;3;1;9;29;33;89;167;67;73;1885;477;5745;13365;6819];
[8382;1;3;7;9;9;49;95;13;157;997;1725;935;7543;6349;18277];
[8393;1;1;5;5;11;59;97;17;303;469;93;2761;7395;9021;24299];
[8402;1;1;7;3;27;63;71;99;407;139;711;2589;4715;5405;3277];
[8414;1;3;7;3;11;15;49;57;271;493;1165;2839;8191;2609;14759];
[8417;1;1;1;7;21;15;71;245;413;473;1321;1165;1027;6983;12867];
[8420;1;1;5;3;15;21;19;197;401;627;2047;2761;5807;5751;28025];
[8429;1;1;3;3;5;57;19;209;341;165;489;455;231;14385;12457];
[8435;1;3;3;11;13;63;79;129;17;315;1881;1069;177;12013;29567];
[8438;1;1;3;7;31;29;51;235;475;375;617;437;6379;8505;23079];
[8450;1;1;3;7;27;3;3;137;203;959;363;371;2899;13491;22979];
[8452;1;3;3;3;9;1;57;7;363;537;713;2417;509;7747;22135];
[8459;1;3;3;3;13;21;79;121;487;921;113;281;2853;14855;19747];
[8470;1;1;1;11;3;53;89;123;307;585;567;1925;505;15935;20419];
[8486;1;1;3;3;15;45;77;197;499;683;1405;3573;981;14135;19763];
[8490;1;1;1;11;27;31;61;191;29;601;373;2011;6193;3599;4387];
[8500;1;3;5;9;7;13;1;193;469;603;1315;3329;3761;8355;10425];
[8524;1;1;3;9;29;61;103;17;117;251;2029;2963;3763;16117;6627];
[8536;1;3;1;3;7;51;91;145;497;657;871;3707;5905;10449;14901];
[8552;1;1;3;1;3;53;23;149;461;333;1809;1315;1815;8223;13297];
[8558;1;1;1;7;15;31;3;47;443;829;1305;893;4191;9681;32661];
[8570;1;3;1;3;27;43;51;221;295;825;649;2953;6203;8237;20253];
[8576;1;3;1;3;9;35;41;195;249;225;387;3789;1499;2559;28413];
[8582;1;1;5;15;19;29;13;115;333;787;787;723;2987;6227;10865];
[8594;1;3;5;13;5;59;5;251;79;387;11;3167;6619;13317;18979];
[8606;1;1;7;11;31;51;43;1;189;519;1945;2129;4365;14059;3139];
[8619;1;1;7;5;31;9;43;19;151;533;1061;3849;6871;6941;14935];
[8621;1;3;7;5;19;57;7;129;25;353;17;1739;6513;399;28835];
[8624;1;3;5;15;25;15;37;125;39;239;271;65;2189;10449;11815];
[8633;1;3;7;15;19;57;47;245;509;945;385;3987;3585;14711;9655];
[8641;1;1;3;13;21;31;13;81;9;489;1321;63;1363;2219;19541];
[8653;1;1;5;7;3;57;25;147;23;553;889;307;6429;15807;12861];
[8654;1;1;3;15;29;21;99;237;151;881;675;3625;1159;11759;21347];
[8662;1;1;7;1;9;13;111;239;235;609;1569;3271;2837;13807;7301];
[8675;1;3;1;15;7;59;27;81;129;9;647;3595;1877;1067;1859];
[8689;1;3;7;1;3;25;119;57;145;441;1045;789;215;1265;9369];
[8695;1;3;7;3;17;25;87;211;441;229;223;2795;7241;7007;20575];
[8702;1;1;3;1;13;1;55;227;389;141;1097;2487;7603;4161;5025];
[8706;1;1;3;5;15;29;29;145;233;209;891;89;8097;2897;26685];
[8720;1;1;3;1;29;53;19;95;161;359;435;3313;4955;7965;21015];
[8729;1;3;5;9;19;3;109;77;29;937;1663;125;2453;1069;20639];
[8739;1;3;7;13;5;23;43;231;347;591;1963;2491;4045;16029;8149];
[8741;1;1;5;1;13;3;75;211;419;929;901;3453;8121;799;8897];
[8751;1;1;7;15;11;11;123;111;309;415;1071;975;2009;12945;19617];
[8759;1;1;1;7;31;35;81;255;89;643;451;513;497;11751;24215];
[8766;1;3;5;5;25;17;5;165;139;929;1927;1353;7427;9719;17087];
[8777;1;3;5;1;21;55;79;85;333;847;1305;851;5057;8361;18269];
[8783;1;3;7;15;27;17;55;125;395;223;271;781;1639;10569;11143];
[8786;1;1;7;9;7;33;127;85;209;339;483;241;2523;14951;6855];
[8795;1;1;3;9;5;19;9;183;435;343;1105;3139;7617;1311;267];
[8802;1;1;5;1;15;53;11;63;113;241;855;3123;4777;3495;23345];
[8814;1;3;1;5;19;29;119;205;167;683;289;1629;4977;8981;6867];
[8821;1;3;1;1;31;63;95;159;267;231;863;3385;5315;7267;13757];
[8828;1;3;5;11;19;21;53;41;125;179;533;1279;3759;7073;13905];
[8831;1;3;5;9;17;7;27;67;97;809;1423;2743;2859;16121;329];
[8837;1;3;1;15;1;41;59;155;509;51;1827;3739;3879;13369;30821];
[8842;1;3;3;7;21;31;7;13;347;919;1225;497;5051;3769;20211];
[8855;1;3;7;13;31;9;127;195;123;387;3;3593;6623;9827;29319];
[8856;1;1;3;9;7;27;95;211;287;189;1683;1999;7641;14983;4699];
[8868;1;1;5;3;7;21;29;189;101;423;885;3275;6569;11023;22265];
[8877;1;3;5;3;9;33;79;75;327;975;287;3025;2157;7301;24447];
[8890;1;3;3;15;31;27;63;1;71;119;1151;517;6131;11055;179];
[8892;1;3;7;11;23;15;101;247;349;735;673;997;6451;229;32103];
[8900;1;3;5;15;7;1;51;135;207;741;1831;1235;4747;11915;22009];
[8909;1;3;1;13;9;31;19;221;465;681;627;2595;5617;14201;30355];
[8912;1;1;3;1;13;49;55;155;11;885;1275;3591;2217;6659;30885];
[8921;1;1;7;11;27;57;93;95;243;63;1405;2049;7689;15943;18503];
[8922;1;1;7;7;5;11;47;189;467;631;1665;2717;4285;2087;1435];
[8927;1;1;3;11;7;27;127;3;231;757;435;2545;3537;9127;19915];
[8943;1;1;5;13;5;29;85;127;339;875;497;1573;6553;11983;18029];
[8948;1;3;1;1;21;3;15;91;231;683;1529;2651;4147;13437;23861];
[8951;1;3;1;7;27;17;19;179;243;223;1037;1501;5935;2259;25185];
[8958;1;1;3;15;11;19;127;27;483;219;583;2555;531;3451;17875];
[8984;1;1;1;13;31;39;89;149;363;741;1355;4067;3171;6783;1799];
[8994;1;1;3;11;25;51;45;235;379;123;1701;725;1991;7471;9833];
[9000;1;1;5;13;15;47;13;201;263;57;375;2963;7475;15929;13775];
[9013;1;1;3;1;29;29;11;161;345;253;97;255;7267;2379;3933];
[9018;1;3;1;15;3;47;11;69;347;747;795;2401;3367;2383;6125];
[9020;1;1;7;3;1;49;101;47;71;761;1503;2619;191;8895;873];
[9031;1;3;3;5;25;41;93;85;427;109;1675;2409;4317;9233;30283];
[9035;1;1;3;9;11;3;67;159;425;751;887;1415;403;15977;10739];
[9045;1;1;5;13;9;1;9;103;481;601;931;1957;5763;7095;27141];
[9052;1;1;3;15;29;13;43;33;297;269;1041;1411;3461;12043;10045];
[9056;1;3;5;3;3;3;5;7;185;753;133;1561;5595;13777;25795];
[9059;1;3;5;5;1;19;29;145;163;149;619;2603;7757;10035;10189];
[9066;1;3;7;15;27;15;111;173;135;117;157;2601;7919;12111;22795];
[9076;1;3;1;1;29;27;65;31;101;715;289;3643;2335;6789;23397];
[9089;1;3;1;3;11;45;71;109;321;423;1695;169;3075;12423;11391];
[9129;1;1;3;9;13;51;35;121;203;279;433;2725;7951;2105;27333];
[9132;1;1;1;15;23;31;25;105;501;441;1511;3133;2811;10595;21779];
[9147;1;1;5;13;7;1;97;193;121;993;1347;1903;1883;6583;24535];
[9164;1;1;7;9;7;29;17;41;101;447;1289;387;1891;2723;26091];
[9167;1;1;3;3;3;53;81;81;177;165;195;3413;8177;3817;8453];
[9185;1;3;7;15;15;31;23;31;337;439;1773;63;5351;5491;1767];
[9195;1;3;1;11;5;15;23;75;437;553;429;2705;3625;13851;19865];
[9197;1;3;3;9;13;15;33;235;215;415;1737;1409;2101;14623;14717];
[9210;1;3;7;7;13;51;101;217;175;813;1639;4009;1625;4991;17525];
[9217;1;1;5;13;23;33;29;175;39;673;557;3239;5129;11049;27227];
[9229;1;3;7;13;1;37;33;139;493;891;1883;2525;5741;15795;5875];
[9248;1;3;1;15;15;27;127;111;147;363;725;3077;4341;9131;24635];
[9254;1;1;7;3;17;25;59;135;177;635;73;3455;3083;6009;13033];
[9263;1;1;1;5;15;53;93;161;215;459;1087;179;2235;8885;15309];
[9266;1;1;7;13;7;17;75;173;449;855;103;2739;3421;11811;18805];
[9268;1;1;7;9;5;11;53;75;247;249;1201;953;2455;4589;6027];
[9290;1;1;5;13;27;51;119;39;137;11;1435;3773;3889;6081;11829];
[9310;1;1;5;5;5;35;1;197;501;185;1039;1563;6421;14373;25655];
[9316;1;1;3;13;31;55;115;183;483;655;1351;3203;725;3299;22579];
[9338;1;3;5;11;31;31;83;59;395;21;1881;2821;2251;11781;26265];
[9340;1;3;7;13;21;19;103;21;403;443;1951;55;985;15983;15087];
[9343;1;1;5;15;29;11;51;53;255;183;1475;1491;259;387;10303];
[9344;1;3;5;7;21;37;45;39;479;637;1325;3753;3319;7403;31759];
[9350;1;1;3;5;7;43;89;53;269;187;995;141;119;8139;29699];
[9354;1;1;1;5;1;53;3;23;379;223;1889;4035;1437;12425;9051];
[9359;1;3;1;13;3;31;61;43;249;449;901;1921;3495;8599;5263];
[9361;1;1;3;5;3;25;35;133;25;597;915;3663;5147;11831;24269];
[9364;1;1;1;9;21;27;93;93;217;299;1881;3647;4825;7989;24121];
[9368;1;3;1;15;5;15;49;129;315;631;2037;1567;4043;15589;30905];
[9371;1;3;3;7;25;5;123;51;47;471;1563;3947;7975;3681;9611];
[9373;1;3;7;15;1;17;73;245;465;95;95;1159;1319;4675;8841];
[9389;1;1;3;15;5;51;35;71;423;651;753;173;2131;15799;29601];
[9390;1;1;1;1;3;53;83;187;445;827;1549;979;5363;1701;2149];
[9409;1;1;7;9;3;15;65;161;37;233;771;3749;727;6857;17175];
[9443;1;1;7;7;27;29;107;247;249;353;773;3677;7273;5419;29397];
[9445;1;3;3;7;31;49;87;159;145;497;1715;2115;5035;6431;7245];
[9446;1;3;3;5;7;31;51;117;101;617;557;2551;6589;13295;31975];
[9452;1;1;3;3;15;27;125;163;169;893;1771;25;5787;10267;10297];
[9490;1;1;1;5;9;47;85;65;289;783;1105;4035;4111;2589;24575];
[9492;1;3;3;13;23;33;7;49;301;531;1713;2755;5543;8153;24099];
[9495;1;1;5;9;7;39;101;67;417;923;757;1537;5553;12233;20881];
[9508;1;1;5;1;19;7;25;123;125;183;573;3317;6867;871;17631];
[9523;1;1;3;15;19;13;117;41;129;715;1525;2257;2179;10807;23271];
[9543;1;3;1;5;25;53;19;169;289;569;1135;1967;7001;15883;15113];
[9558;1;3;7;15;7;37;127;147;415;313;1541;1889;3763;16199;12681];
[9567;1;1;3;9;1;35;95;137;237;951;899;3177;6073;10655;31687];
[9580;1;1;5;5;29;57;45;253;297;529;1553;467;8035;15675;21691];
[9585;1;3;7;15;25;41;59;81;87;985;1001;2369;661;7551;11829];
[9591;1;1;7;9;27;21;7;233;309;67;701;2737;4261;2467;15691];
[9611;1;3;7;1;19;55;47;155;333;101;517;1991;4619;10435;27241];
[9613;1;1;7;3;23;35;7;125;157;537;933;3281;4975;8969;27581];
[9614;1;1;3;7;19;53;81;103;461;435;777;335;5261;12249;9695];
[9621;1;3;1;7;19;9;75;245;355;37;1855;1339;3107;7251;16543];
[9631;1;1;1;3;5;35;39;223;113;423;1423;713;6113;349;24147];
[9642;1;3;1;1;15;31;11;75;499;345;1253;2629;2551;7483;25395];
[9656;1;1;3;11;25;25;3;211;185;45;1865;1805;3303;11091;529];
[9661;1;3;1;1;9;21;7;165;107;641;1083;2805;2099;5855;18477];
[9667;1;3;5;3;9;21;77;103;505;277;335;797;3869;2957;1979];
[9694;1;3;5;15;31;23;77;247;303;891;1261;3233;3495;13111;13185];
[9715;1;3;5;11;11;35;49;229;149;931;881;775;2949;3141;29157];
[9722;1;1;3;5;19;57;23;95;347;221;195;3561;1481;2063;3979];
[9738;1;3;5;3;13;1;23;173;431;29;421;3235;2751;4447;28283];
[9745;1;1;5;13;23;3;1;9;327;855;1251;2997;6129;4223;11555];
[9758;1;3;7;13;29;21;37;229;217;353;1239;3955;491;12183;14777];
[9764;1;1;5;5;1;33;103;187;183;939;1873;2633;6143;15405;17353];
[9782;1;1;1;9;21;27;71;129;499;279;1181;4053;2485;1961;30603];
[9791;1;1;3;15;21;37;45;201;221;187;727;1241;6171;1383;22277];
[9793;1;3;7;5;21;17;67;177;323;601;633;865;6131;10329;8689];
[9794;1;3;5;9;15;45;71;43;359;651;103;403;3249;11769;6567];
[9805;1;3;3;13;3;23;101;145;367;999;1489;3673;2959;10855;16029];
[9808;1;3;7;3;13;43;123;87;55;1015;141;2917;6567;16025;25555];
[9811;1;3;1;3;17;7;21;161;41;889;1315;1897;639;15451;3049];
[9817;1;3;5;15;27;33;55;17;81;431;325;909;3547;10121;17815];
[9824;1;1;3;1;15;37;43;137;203;191;1129;1585;435;3177;769];
[9836;1;3;7;11;21;23;125;41;17;951;465;3691;3465;13247;13779];
[9851;1;3;3;1;31;23;43;101;405;739;1061;2955;5643;16137;8763];
[9853;1;1;5;1;19;33;99;109;203;65;395;2775;1373;2557;5875];
[9854;1;3;3;3;27;51;79;63;331;365;1071;1661;4549;8561;1719];
[9877;1;3;3;9;3;17;53;161;141;489;1325;1709;1381;5093;171];
[9881;1;1;7;15;9;3;95;237;197;949;7;1837;729;10111;6637];
[9923;1;1;3;3;19;31;57;173;483;861;1001;1919;3389;11777;20693];
[9935;1;3;1;9;27;13;113;177;75;925;949;119;4759;7775;23033];
[9937;1;1;7;15;23;15;65;61;137;653;1843;323;379;15157;29885];
[9954;1;3;3;7;29;3;11;205;347;745;1477;3929;5749;4735;29435];
[9959;1;3;5;9;1;11;111;15;7;69;45;3607;1099;9203;21301];
[9963;1;3;3;3;23;3;83;173;73;485;681;1867;3839;11823;13339];
[9968;1;1;3;11;31;43;107;127;465;389;1595;427;1571;5885;29569];
[9973;1;1;7;9;27;25;117;27;287;391;279;3247;35;12973;5483];
[9974;1;3;7;11;19;55;45;127;245;945;305;3907;2455;3163;31];
[9980;1;1;7;11;15;17;65;15;37;207;1447;3027;2281;6557;16717];
[9983;1;1;1;13;5;27;33;213;29;603;1171;3235;2255;2017;30999];
[9985;1;3;1;5;11;1;73;233;69;125;397;297;3337;6191;31055];
[10003;1;1;1;15;1;1;65;145;201;917;1891;2999;4069;10413;15819];
[10010;1;3;5;13;15;51;115;167;311;375;1069;2595;3337;753;11903];
[10034;1;1;3;1;1;23;69;125;147;915;1945;411;979;13863;30443];
[10040;1;3;1;11;5;1;93;23;135;93;1689;23;3519;4491;24673];
[10063;1;1;7;3;11;59;93;153;487;475;1191;1455;5963;8259;18811];
[10077;1;1;3;1;13;15;55;71;433;33;491;1835;5695;10509;347];
[10081;1;1;1;15;19;1;23;47;235;101;1057;901;5477;7079;30885];
[10082;1;1;5;13;11;43;119;77;441;121;783;827;1757;12751;31593];
[10084;1;3;7;11;19;17;37;225;329;231;515;1541;7371;6355;10905];
[10088;1;1;5;13;7;11;35;215;345;577;147;2803;3291;4631;5329];
[10091;1;1;3;9;21;55;113;251;25;221;1445;3385;1589;4109;29897];
[10105;1;1;5;7;9;45;5;33;331;285;1101;3131;2713;5653;3823];
[10111;1;3;7;7;5;39;43;167;481;629;777;1827;4653;403;4781];
[10118;1;3;3;7;31;33;31;159;313;673;1425;663;5819;1297;26627];
[10127;1;3;3;1;19;61;117;93;373;491;1031;757;4185;771;7265];
[10135;1;1;7;9;3;45;65;223;437;41;1139;2733;5963;2709;25429];
[10169;1;3;5;11;21;27;31;127;255;761;1865;1319;6583;9235;10717];
[10172;1;1;1;5;21;1;63;43;413;557;567;2893;8017;2307;29525];
[10183;1;1;7;3;31;1;15;235;215;395;1971;469;5275;431;5349];
[10190;1;1;1;13;25;59;71;245;389;279;1293;89;6551;10285;14495];
[10192;1;1;5;5;9;63;17;229;425;939;877;3689;7229;6707;30771];
[10211;1;3;7;7;11;29;43;41;25;237;1585;3735;2617;7541;26243];
[10218;1;1;7;9;21;5;69;231;361;39;1695;3043;2973;5487;12857];
[10228;1;1;5;3;17;63;91;217;407;133;1373;4021;1737;10043;4561];
[10235;1;3;7;9;31;13;101;231;175;457;89;2167;2725;8505;375];
[10242;1;1;3;15;31;11;27;211;347;291;1881;3091;3307;5117;13341];
[10244;1;3;5;5;13;25;5;197;237;135;635;1175;5085;14737;10807];
[10271;1;3;3;9;7;63;107;127;147;477;1813;2619;8089;2651;26549];
[10278;1;1;5;11;15;45;27;133;45;621;707;2679;5929;19;9599];
[10296;1;3;7;9;21;37;41;255;69;1009;1999;367;6177;10017;3549];
[10299;1;1;1;15;19;55;73;189;423;983;1811;2551;4765;12077;18205];
[10307;1;1;5;7;17;13;25;225;463;471;631;1811;5797;3235;32253];
[10309;1;3;7;1;29;7;123;187;331;735;1757;1115;2077;15725;2183];
[10310;1;3;7;9;17;61;111;93;21;1003;1905;3719;2111;11845;6427];
[10314;1;3;7;7;17;21;51;59;115;723;2039;2833;5969;5737;18407];
[10316;1;3;3;13;9;47;95;233;13;281;1049;619;405;16205;20097];
[10321;1;3;7;13;9;41;11;171;453;713;587;1669;2489;10277;18599];
[10328;1;3;3;13;21;41;123;173;511;399;859;1515;5773;12535;26289];
[10338;1;1;7;15;11;3;113;111;73;7;1191;2573;7713;465;27615];
[10343;1;1;7;15;5;5;39;11;489;13;1041;1639;7879;11899;6899];
[10344;1;1;5;9;27;31;15;237;401;795;1675;2361;7333;12507;14627];
[10347;1;3;1;7;21;53;31;81;189;683;1283;419;7585;9207;15053];
[10352;1;3;5;11;21;1;49;251;403;489;1235;429;4855;4081;17575];
[10364;1;3;1;15;29;33;77;53;105;731;749;2677;3967;7967;18723];
[10373;1;3;3;11;9;47;11;95;137;923;599;1585;1969;9625;19171];
[10386;1;1;1;5;7;7;85;49;339;883;261;2125;3831;9797;16395];
[10391;1;3;3;3;5;9;33;99;75;889;101;2099;6635;11511;21573];
[10398;1;1;5;11;1;11;79;49;7;131;471;1235;3287;14777;12053];
[10408;1;1;5;15;9;9;83;15;21;899;1785;2349;3471;6723;1405];
[10413;1;3;5;11;1;7;121;223;509;859;1037;491;5529;481;17029];
[10422;1;1;7;5;17;35;91;171;113;65;423;2371;5105;12827;31087];
[10445;1;1;3;3;21;47;55;11;159;51;263;2113;661;9147;28929];
[10460;1;1;1;9;19;7;43;223;207;787;543;2141;4247;7369;29031];
[10463;1;1;7;11;11;51;121;9;211;905;687;889;1827;13395;3507];
[10464;1;3;1;7;15;23;5;139;469;569;33;3477;5391;13665;17011];
[10474;1;1;1;15;29;29;29;201;63;1019;97;1671;9;4617;19833];
[10476;1;1;5;15;25;5;67;225;189;919;1471;1451;5017;16189;31555];
[10487;1;3;5;5;15;51;89;221;149;863;43;2381;1767;8037;5319];
[10494;1;3;3;1;15;17;5;77;69;27;1883;63;5987;1497;3723];
[10499;1;3;7;11;7;5;113;229;123;709;1531;641;6655;14923;22947];
[10506;1;3;1;13;21;15;45;175;81;499;1113;587;7573;11689;15651];
[10513;1;3;1;1;29;43;101;37;131;757;465;743;2737;8063;23967];
[10516;1;1;7;13;9;21;39;177;51;691;2047;1519;6137;5271;8703];
[10523;1;1;3;3;5;55;63;21;3;317;461;527;2673;16211;6721];
[10539;1;3;5;5;5;47;7;241;387;589;323;203;7241;14761;13287];
[10549;1;3;5;3;23;63;55;61;231;1023;1315;1181;243;7389;25639];
[10550;1;1;7;13;31;43;41;81;127;887;1513;4055;1361;2443;6963];
[10567;1;1;1;5;7;43;43;33;323;911;1373;3053;6503;513;6457];
[10576;1;1;7;11;25;61;21;149;205;349;1433;1587;149;7275;5465];
[10625;1;3;5;5;11;9;31;217;119;511;209;3325;2023;2877;463];
[10635;1;3;5;15;21;47;89;41;347;849;1375;3311;807;11443;27643];
[10643;1;1;5;7;29;43;123;191;321;373;447;2145;1221;2071;12689];
[10656;1;3;5;15;1;21;43;141;461;779;1109;2915;909;8585;19859];
[10671;1;3;3;11;5;17;57;13;393;661;1761;2455;43;8593;20505];
[10676;1;3;5;1;31;47;65;249;77;513;851;2381;3447;693;7729];
[10683;1;3;5;15;31;19;83;47;369;697;1815;819;7573;9245;8013];
[10685;1;3;5;5;11;25;27;151;107;339;299;3869;3393;5661;2947];
[10688;1;1;3;1;1;59;85;57;175;465;239;3115;7157;7035;11463];
[10697;1;1;7;5;31;41;53;149;121;743;189;159;5289;2945;1179];
[10700;1;3;3;15;23;51;83;25;159;163;61;713;4529;5253;1603];
[10712;1;3;5;11;7;29;15;177;507;695;1305;1863;7525;3063;27433];
[10724;1;1;3;11;5;41;115;227;409;951;591;4003;7717;4369;15637];
[10728;1;1;7;11;23;55;71;135;51;411;2003;2375;6823;1711;4443];
[10734;1;3;1;3;31;47;31;233;243;3;313;1649;6955;13679;32327];
[10739;1;1;3;11;29;9;1;79;247;677;685;3107;5987;9675;29523];
[10762;1;1;1;7;25;31;39;241;483;839;1143;437;2317;2437;173];
[10772;1;1;5;1;17;19;83;57;39;479;715;1911;1091;10937;22145];
[10781;1;1;7;1;27;45;35;55;477;719;217;3349;7717;6853;9699];
[10800;1;3;1;11;9;39;25;223;303;713;151;2611;4629;5855;31729];
[10805;1;1;1;11;13;35;53;39;167;779;1673;1221;6281;15113;32027];
[10827;1;1;5;9;19;63;89;113;199;107;1015;835;2879;9499;25597];
[10830;1;1;7;3;19;37;15;23;449;641;1811;3407;6775;6283;31157];
[10837;1;1;3;1;19;15;31;99;511;897;1693;2093;955;15897;26693];
[10841;1;1;5;1;5;15;47;19;441;541;1621;3877;6407;15991;1931];
[10847;1;3;5;9;21;61;15;77;265;351;879;3835;6555;2349;23235];
[10848;1;1;5;11;25;37;29;181;341;641;1213;1319;6359;6231;32573];
[10857;1;1;1;7;1;37;87;123;33;913;111;2613;4895;12595;26633];
[10866;1;3;5;3;27;11;45;89;183;241;1355;783;3343;239;8643];
[10868;1;3;7;7;9;35;67;187;233;577;1445;3063;6039;16233;1453];
[10872;1;1;3;13;27;11;23;15;95;63;1931;911;8149;6833;3051];
[10887;1;3;3;5;29;49;125;117;47;143;423;3215;3605;3677;17155];
[10899;1;3;1;1;31;1;123;195;83;893;1947;339;2927;7183;15443];
[10901;1;1;7;13;31;15;91;207;39;275;439;2617;3093;11041;24997];
[10915;1;1;5;3;3;41;13;67;361;497;25;3807;3551;9681;21043];
[10924;1;3;3;3;11;27;103;59;427;327;1705;29;8127;1641;20847];
[10929;1;3;7;5;3;37;81;137;225;101;187;3067;2491;12687;16227];
[10942;1;3;5;15;15;33;69;223;225;771;1917;2293;2889;12083;23971];
[10971;1;1;3;5;11;9;121;81;203;425;1189;2011;3041;3247;739];
[10992;1;3;1;1;13;9;39;169;437;571;1481;3355;3895;8975;31031];
[10995;1;3;1;11;1;43;35;35;293;11;657;1415;5021;14463;17945];
[11002;1;1;5;5;13;47;91;15;159;23;971;3575;757;13477;31757];
[11010;1;1;7;1;5;63;69;27;71;129;123;3767;89;7865;1189];
[11027;1;3;3;5;23;1;83;3;487;491;217;2583;3889;15009;9227];
[11029;1;3;5;15;25;1;73;107;245;191;1449;571;1403;6953;17457];
[11045;1;3;3;3;27;19;25;105;207;857;1161;3657;2107;7955;517];
[11057;1;3;3;9;21;29;5;103;219;35;3;1635;4815;15797;29839];
[11070;1;1;7;7;3;63;75;77;13;57;603;2333;7761;14397;10875];
[11092;1;3;7;13;3;11;5;255;1;947;1695;1927;7447;7407;20797];
[11099;1;1;5;1;1;21;105;73;429;973;1801;3943;6161;1309;3359];
[11106;1;1;3;15;27;9;9;129;117;545;9;1983;6351;10925;27337];
[11115;1;3;3;5;5;5;13;155;503;875;1243;2259;3445;11953;6517];
[11120;1;1;7;3;29;21;121;147;413;423;1887;2429;2765;16335;3071];
[11126;1;1;7;9;5;53;41;137;463;583;1627;1731;6675;3703;8177];
[11153;1;3;5;11;31;29;67;159;425;25;1457;139;5019;701;7357];
[11190;1;3;1;5;25;15;123;123;245;859;249;2175;2137;5765;4873];
[11199;1;1;3;5;23;1;111;111;111;469;1473;1777;3579;13503;2569];
[11222;1;1;7;3;17;23;51;23;499;135;713;3317;807;9589;11349];
[11225;1;1;1;15;9;51;75;159;359;773;1521;2913;5901;3047;14649];
[11226;1;1;3;1;13;61;117;195;49;267;57;1769;3621;9415;29443];
[11231;1;3;7;11;3;25;33;31;315;191;359;3399;2481;13831;20205];
[11244;1;3;3;5;31;43;35;125;291;51;1469;3857;1707;2641;32137];
[11259;1;3;5;1;25;11;113;137;211;159;1667;939;6439;5337;32059];
[11261;1;3;3;11;31;61;99;49;383;343;395;51;6931;16039;5901];
[11270;1;1;3;5;9;63;63;49;405;915;1505;2141;6749;7799;17313];
[11273;1;3;7;11;15;11;49;161;155;869;121;301;6561;4279;15233];
[11300;1;1;5;13;19;13;103;59;503;293;701;2527;5327;13927;5025];
[11307;1;1;7;1;1;37;55;155;485;399;855;2677;5927;9657;2795];
[11318;1;1;1;5;19;15;121;69;385;75;1567;2649;5601;12981;15903];
[11332;1;1;1;11;19;21;45;59;505;737;15;1383;1177;8375;15557];
[11335;1;1;7;13;29;19;123;127;469;773;733;3289;8087;5803;27897];
[11341;1;3;3;11;19;55;101;67;485;939;607;1521;6161;12235;16499];
[11347;1;3;5;13;29;31;31;9;453;151;1055;3873;405;12877;29829];
[11354;1;3;5;1;17;1;17;131;107;1003;1749;1849;6207;2153;21275];
[11360;1;3;7;15;7;25;51;143;51;517;1841;1771;5389;4633;11123];
[11369;1;3;7;11;23;7;89;95;403;361;835;585;2783;8091;5141];
[11372;1;3;1;9;1;53;115;11;493;587;305;3605;1711;4169;20013];
[11378;1;3;7;3;17;59;55;251;49;759;1227;3685;7765;1445;20385];
[11396;1;1;5;7;29;55;19;157;129;927;893;1235;1955;8153;2865];
[11405;1;3;1;15;21;35;81;53;175;939;1635;3597;747;14011;12867];
[11417;1;3;7;1;27;61;91;73;405;677;603;2715;7099;941;24523];
[11424;1;3;5;9;13;45;35;167;57;483;735;2777;7847;6257;13109];
[11427;1;3;5;7;1;3;97;13;159;533;1791;1061;981;10795;26165];
[11430;1;1;5;13;27;5;125;25;251;221;1909;197;6987;11537;15287];
[11439;1;3;5;5;27;15;1;131;375;923;81;3153;6071;2515;23729];
[11442;1;3;3;9;9;23;71;13;465;261;937;1549;5993;11325;15065];
[11448;1;3;1;3;7;63;17;129;435;23;215;2251;1561;9703;26483];
[11461;1;1;3;1;5;53;77;109;9;605;371;2081;6023;7145;15837];
[11468;1;3;7;11;27;39;115;47;259;337;1857;3465;1549;7747;8525];
[11471;1;3;7;7;29;29;75;77;29;661;899;3137;2661;15271;28093];
[11473;1;1;1;3;3;3;11;219;39;757;1465;249;7445;7013;15187];
[11476;1;3;7;15;15;1;39;245;427;1003;1493;1913;6435;14787;13481];
[11480;1;1;7;3;3;37;5;97;343;833;1379;1551;5403;1843;5877];
[11489;1;3;1;1;3;17;17;163;339;691;1707;1845;5941;4259;24531];
[11499;1;1;1;1;27;21;85;221;71;949;1753;391;6349;15901;20811];
[11516;1;1;1;5;31;19;45;99;469;783;1747;3807;5889;9485;13715];
[11522;1;3;1;9;23;21;39;25;421;713;461;2857;5023;5341;6409];
[11531;1;3;7;5;25;19;59;147;387;857;375;3103;1261;13697;25675];
[11539;1;3;5;5;31;21;49;251;463;441;473;3487;3915;11151;17721];
[11546;1;1;3;9;15;47;81;219;143;141;81;1705;5847;3437;30521];
[11551;1;1;7;3;25;19;97;41;77;105;1337;695;7589;8587;7509];
[11564;1;1;5;13;3;11;61;19;139;667;963;1567;5715;7079;15967];
[11582;1;1;5;5;5;29;67;57;477;173;1163;727;823;15635;17705];
[11589;1;3;7;11;13;39;57;193;73;617;535;1623;4581;4451;2589];
[11593;1;1;5;5;9;27;75;127;325;413;1669;1749;8045;16199;12237];
[11601;1;1;3;1;17;23;27;189;319;953;347;909;4401;12791;25077];
[11608;1;1;3;3;17;51;37;79;301;607;885;1169;3275;3327;20013];
[11617;1;3;5;3;21;9;99;213;387;889;575;3591;5377;2981;23989];
[11630;1;3;3;13;11;7;23;255;279;853;453;2377;8123;15393;9669];
[11663;1;3;1;7;11;9;109;35;405;449;1967;2943;3485;5031;14273];
[11666;1;3;3;1;25;27;43;115;435;675;1937;1477;4831;9417;7017];
[11668;1;1;7;13;19;45;83;241;487;215;1453;209;4061;1765;15623];
[11677;1;1;7;7;21;31;95;9;287;1005;1933;3405;6913;7733;18975];
[11682;1;1;1;11;13;11;25;39;283;57;255;2809;5767;6127;6705];
[11687;1;3;1;11;1;51;73;181;261;215;385;2777;5169;12431;23563];
[11696;1;3;3;9;9;39;123;197;501;679;109;3369;4817;8855;7997];
[11713;1;1;5;1;29;61;15;183;453;999;1211;3217;8035;5153;19975];
[11728;1;3;7;11;11;21;51;45;379;793;289;309;1229;7159;581];
[11747;1;1;3;9;17;11;75;67;289;191;1083;2949;6063;6611;21595];
[11750;1;3;7;3;27;45;59;193;485;277;27;1219;2389;15875;6273];
[11754;1;1;5;3;31;29;65;197;115;163;9;783;5573;2833;12603];
[11759;1;1;3;7;5;53;115;181;175;749;1335;1151;2131;12467;15811];
[11761;1;1;1;9;27;39;11;1;443;677;777;1857;7459;3177;3875];
[11764;1;1;7;7;17;3;23;161;105;603;1991;3845;465;11467;2077];
[11767;1;1;3;13;5;23;39;35;399;795;265;207;1823;15069;31839];
[11797;1;1;1;1;29;61;89;193;41;99;315;1021;6109;12507;19973];
[11804;1;1;5;3;13;57;119;251;215;695;1521;4081;2481;657;855];
[11808;1;1;7;3;25;5;3;133;111;385;773;1027;4327;3031;3537];
[11831;1;3;7;5;5;27;43;117;479;83;1421;2791;6551;6231;10353];
[11832;1;1;1;13;3;29;35;71;85;821;1671;3057;797;13683;7025];
[11849;1;3;7;1;1;47;117;233;141;993;1381;2551;1031;11765;18429];
[11855;1;3;1;3;13;3;77;29;35;807;1109;695;5605;5477;449];
[11863;1;1;1;15;21;37;117;105;273;311;1287;1415;1221;1847;19487];
[11880;1;3;1;11;21;61;107;225;335;501;1995;2399;5475;12613;18877];
[11883;1;3;3;1;31;41;27;205;103;837;639;2007;2759;12471;1457];
[11885;1;1;7;13;29;39;71;245;105;235;1277;1515;6129;15947;26653];
[11898;1;1;7;5;7;13;87;251;315;1017;587;2917;5911;2919;29715];
[11916;1;1;1;3;7;19;81;243;177;917;2023;2365;7465;4901;29841];
[11924;1;3;5;15;1;31;15;147;285;1003;1757;47;6925;1197;19633];
[11928;1;1;5;7;27;25;47;209;85;403;1399;2331;3663;595;13407];
[11947;1;3;5;9;7;25;7;139;389;817;1153;1421;5735;9577;10269];
[11955;1;1;1;9;5;61;49;117;389;541;433;1405;2575;223;7265];
[11961;1;1;5;7;15;1;81;207;435;843;835;3797;7637;5333;31115];
[11962;1;3;7;11;13;3;47;249;301;715;2015;3049;8155;10989;26051];
[11982;1;1;7;7;3;33;119;113;381;575;367;41;3317;11727;4351];
[11990;1;3;3;13;9;3;51;37;173;137;533;1827;631;10047;6267];
[12010;1;3;3;11;17;39;61;245;13;139;1281;1319;1233;13629;32269];
[12018;1;1;1;7;15;17;91;109;163;609;11;3251;7653;14035;31755];
[12027;1;3;3;15;13;21;55;231;385;133;1833;2637;6935;14303;26745];
[12029;1;1;1;7;17;41;125;141;89;823;1411;3637;6211;13323;6111];
[12035;1;1;1;11;1;21;9;43;97;685;1223;1491;121;1793;2397];
[12055;1;3;5;5;17;17;5;223;129;865;1839;1137;6391;4377;9233];
[12062;1;3;7;15;21;55;5;77;341;637;1853;1435;1195;9283;21257];
[12068;1;3;5;1;9;49;43;211;127;655;1397;1235;5279;2351;24229];
[12071;1;3;5;3;25;29;13;229;25;675;837;2753;2125;9863;11293];
[12072;1;3;5;7;23;43;127;1;163;237;337;3019;7747;16227;2881];
[12086;1;3;5;5;25;9;43;171;421;521;1885;337;7873;6347;13181];
[12097;1;3;5;5;7;47;107;173;163;191;625;3389;2833;7945;24787];
[12098;1;1;7;3;27;57;27;209;253;815;301;1633;3945;5051;28851];
[12100;1;3;7;9;9;51;103;213;437;189;1857;1331;5551;10641;27405];
[12112;1;1;5;5;15;1;25;105;117;347;161;3369;3589;12903;23559];
[12118;1;1;1;5;3;61;93;51;81;281;1383;745;4137;2005;3635];
[12133;1;3;7;5;13;57;111;211;303;477;359;4019;6779;5129;22035];
[12134;1;1;1;7;17;29;113;113;201;531;749;739;2879;3315;18733];
[12137;1;3;7;13;21;55;21;183;359;75;377;2211;4281;14317;28307];
[12161;1;3;7;1;21;1;49;213;317;75;113;1741;7963;12785;11571];
[12162;1;3;7;9;11;31;29;101;261;141;715;2727;8187;2075;32433];
[12171;1;3;7;3;23;9;17;143;385;211;593;241;6567;10777;6677];
[12174;1;1;3;15;3;17;117;99;91;793;989;2421;5643;16103;9759];
[12185;1;3;7;11;23;43;107;35;421;431;743;853;7939;12169;4199];
[12204;1;1;1;11;21;53;17;203;123;395;59;929;255;7585;10945];
[12212;1;3;3;15;17;57;57;133;67;71;1685;903;4079;15423;26495];
[12215;1;1;1;15;3;47;95;39;405;407;1557;3001;6225;15187;5663];
[12216;1;3;5;5;13;47;33;61;375;1023;1981;2773;2375;11321;17731];
[12253;1;3;5;9;17;59;117;95;493;149;1269;2865;369;2109;24601];
[12260;1;3;5;13;17;63;67;247;95;721;67;305;6179;15399;32559];
[12277;1;1;5;1;3;21;41;15;453;475;2017;3193;5903;897;4237];
[12289;1;1;5;3;15;41;1;141;441;575;155;3791;7711;11231;24611];
[12295;1;3;7;1;17;53;27;169;31;437;963;1793;7777;1917;29311];
[12314;1;3;3;13;9;27;77;87;329;885;749;1713;6013;6921;629];
[12323;1;3;5;13;3;7;53;27;353;267;925;2141;439;15175;30851];
[12325;1;3;3;13;17;57;35;101;265;901;1825;2159;6149;5967;24023];
[12335;1;1;5;11;13;51;99;111;193;415;1541;2929;5045;3147;12587];
[12349;1;3;7;11;15;9;33;17;511;815;299;1077;6171;10451;15039];
[12358;1;1;1;15;25;63;51;137;449;951;1051;1101;4725;2463;7355];
[12372;1;1;1;7;27;63;29;179;317;521;1459;827;6599;13459;15439];
[12376;1;3;3;15;17;31;37;191;229;245;181;941;5761;1849;31599];
[12379;1;1;1;9;27;45;67;239;481;615;1667;3751;8141;10013;2125];
[12386;1;1;1;1;13;51;117;135;73;151;1291;2541;1411;3767;26949];
[12395;1;3;1;9;7;11;21;187;243;857;1951;865;7273;2041;8155];
[12416;1;1;3;3;19;33;89;115;455;137;707;1867;4221;2433;9119];
[12421;1;1;3;11;5;3;121;1;71;951;603;3873;723;3285;19289];
[12440;1;3;7;15;21;1;117;17;455;519;731;3003;5741;9557;29163];
[12452;1;1;3;13;25;5;43;147;209;895;255;1231;241;487;15593];
[12455;1;1;3;13;7;1;89;187;217;927;2029;3521;2777;8103;22819];
[12456;1;1;7;11;7;33;3;73;5;489;227;2259;7031;6425;26135];
[12462;1;3;3;7;31;19;97;201;455;819;945;2771;8083;8711;2835];
[12467;1;1;1;5;15;45;43;157;245;967;877;2289;4499;9891;18827];
[12479;1;3;1;7;21;59;123;63;231;485;1781;1211;4597;5269;1607];
[12505;1;1;1;13;23;39;105;55;249;991;1625;3089;3825;4275;29139];
[12521;1;3;3;1;29;29;55;169;13;895;1355;1101;6063;12935;23215];
[12535;1;1;5;5;31;49;99;137;209;1017;1179;3931;637;14131;19285];
[12547;1;1;1;1;3;11;119;11;215;337;243;3883;3807;7335;11901];
[12556;1;3;7;3;7;27;71;225;219;367;1213;2739;1185;10175;21313];
[12561;1;3;7;13;7;49;23;223;61;1011;797;1335;6711;5961;5605];
[12568;1;3;3;11;19;37;1;149;39;661;929;2125;2299;5181;28083];
[12578;1;3;3;13;13;9;67;21;463;279;529;523;6705;11011;31695];
[12583;1;3;1;5;13;1;123;3;291;625;1949;2713;5917;10343;13627];
[12595;1;1;3;9;27;41;3;207;103;265;811;549;6109;313;8889];
[12604;1;3;3;13;23;43;99;33;279;463;955;793;4113;10615;16957];
[12610;1;1;5;7;11;49;79;45;17;937;359;1037;1099;3003;31561];
[12621;1;1;1;7;3;45;111;35;109;983;53;4057;7349;3599;2209];
[12622;1;3;7;11;9;43;27;9;85;529;1497;347;759;12449;11373];
[12624;1;1;3;9;17;1;49;31;367;813;1385;2025;773;4679;4543];
[12629;1;1;5;15;15;9;43;97;239;995;1037;841;4167;12113;23765];
[12630;1;3;5;9;29;53;123;49;221;113;1157;73;6087;1363;11029];
[12639;1;3;1;13;3;15;69;199;279;919;5;161;4817;15031;121];
[12640;1;3;1;9;3;31;117;77;393;241;645;3181;1067;15879;2037];
[12650;1;3;3;15;3;63;57;33;117;789;941;1301;5865;12693;3523];
[12679;1;1;5;13;3;61;51;151;175;305;95;1557;6567;7841;13903];
[12680;1;3;3;5;15;25;127;79;245;767;645;3933;1357;12579;4067];
[12698;1;3;5;11;21;31;13;251;127;231;1795;2627;1191;3363;23543];
[12716;1;1;3;5;7;49;121;57;131;481;1879;525;5225;337;1957];
[12721;1;1;5;13;9;55;27;37;211;125;119;3373;251;12357;13975];
[12722;1;3;3;15;1;51;91;119;233;993;203;1635;1167;6327;29119];
[12731;1;1;7;1;13;5;23;253;121;989;1105;3321;3221;6073;21185];
[12742;1;1;3;15;13;49;121;247;247;133;485;1067;7875;411;7647];
[12745;1;3;7;13;31;37;127;241;145;133;53;267;2029;3703;16123];
[12751;1;3;1;15;15;9;15;89;35;367;401;61;1953;7873;17861];
[12759;1;1;1;1;1;41;71;249;213;779;1385;1767;999;15151;16647];
[12763;1;3;7;13;31;23;123;235;343;949;309;3777;3587;853;19779];
[12769;1;1;3;13;29;35;5;37;63;757;303;1579;3443;243;11873];
[12781;1;3;1;9;19;49;81;53;11;901;1857;147;3103;14019;21];
[12793;1;3;7;13;3;39;99;99;45;91;1567;551;3129;4809;29057];
[12799;1;3;7;3;3;27;17;231;377;381;1479;2525;2595;2799;25737];
[12815;1;3;5;15;15;25;103;215;301;59;1417;981;7579;12731;22329];
[12824;1;1;1;13;5;31;61;31;349;925;1301;685;435;11567;10715];
[12836;1;1;7;9;19;57;109;1;37;377;1015;2273;6741;3191;15949];
[12845;1;3;3;13;3;23;103;127;11;59;1847;1175;425;3423;20643];
[12853;1;3;3;7;3;11;105;141;55;217;1427;477;667;9403;11905];
[12854;1;3;3;5;3;27;11;187;495;907;1925;445;6639;8159;15225];
[12857;1;3;1;5;27;31;77;213;73;343;1123;3609;2431;15329;32165];
[12866;1;1;7;5;1;11;105;139;485;1007;709;3509;5231;11717;31433];
[12872;1;1;3;15;23;49;95;169;399;1019;19;2013;5311;7951;22609];
[12875;1;3;1;7;13;3;29;203;209;701;1791;2615;5351;4237;12565];
[12878;1;3;1;15;27;11;91;31;205;205;1683;901;5129;6049;11865];
[12880;1;1;7;7;27;59;21;3;209;79;769;4013;2041;2645;11561];
[12885;1;3;7;11;5;45;39;243;185;871;795;1845;8043;6285;20991];
[12901;1;1;5;7;13;7;15;165;349;179;789;1269;3787;5429;26567];
[12902;1;3;3;13;31;23;75;41;177;735;1889;4039;3519;15003;965];
[12920;1;3;1;7;15;57;15;139;27;469;1003;691;7893;9643;30983];
[12926;1;3;1;13;23;27;3;237;233;875;99;883;6167;5463;6245];
[12929;1;1;5;13;25;57;79;51;147;619;1147;279;6583;1939;477];
[12939;1;3;5;5;31;61;125;163;213;699;583;3865;615;9707;11651];
[12941;1;1;5;1;5;21;93;239;31;641;777;27;5247;8993;21053];
[12950;1;3;7;9;1;13;61;57;503;453;83;3271;2845;1121;18639];
[12953;1;1;7;5;29;53;13;219;379;441;821;3179;4877;2535;7557];
[12992;1;1;7;13;9;53;17;183;265;393;587;2753;6453;7135;24737];
[13002;1;1;1;13;11;23;73;109;393;1013;559;755;7291;6631;26509];
[13010;1;3;1;5;5;15;107;103;355;307;1559;837;5413;5285;17489];
[13058;1;1;5;7;17;21;21;23;109;709;1947;3585;3629;4669;949];
[13072;1;3;7;1;9;33;85;147;467;259;1913;199;7399;9551;22387];
[13084;1;3;5;11;15;53;23;41;249;515;1161;2467;1299;7449;2613];
[13087;1;1;5;5;5;29;91;139;487;545;321;3035;4545;6747;21673];
[13091;1;1;3;13;23;49;95;103;25;119;469;2515;2551;841;25089];
[13097;1;1;5;7;11;31;31;197;245;715;257;4043;8099;11531;5617];
[13108;1;1;3;3;19;7;9;179;103;995;191;179;3843;5215;27639];
[13123;1;3;1;7;23;59;25;65;399;211;1453;3511;7203;16015;32197];
[13149;1;3;3;5;9;35;109;67;197;449;643;519;5751;15551;11331];
[13150;1;3;5;3;1;17;53;201;265;351;467;911;1117;7183;20371];
[13163;1;1;7;7;27;17;93;81;227;619;1191;735;815;12615;2719];
[13166;1;3;1;15;19;3;83;75;343;297;1019;3469;4383;13299;29755];
[13178;1;1;5;3;13;55;119;169;85;595;299;2469;5625;2877;16117];
[13180;1;1;3;5;15;17;61;161;47;393;143;867;5517;9495;12795];
[13184;1;3;5;1;27;31;113;125;251;687;969;1473;2245;6355;13655];
[13204;1;1;1;5;5;37;29;133;443;899;277;2353;7223;4459;19159];
[13238;1;1;3;9;19;27;53;145;195;167;2045;447;1803;1895;8431];
[13242;1;1;3;9;5;27;91;147;233;451;475;27;4629;16181;16437];
[13249;1;3;5;3;29;17;53;167;433;689;1131;2985;1553;11697;6993];
[13255;1;3;3;13;21;43;69;229;399;525;179;237;7017;5703;17653];
[13269;1;1;3;15;13;39;75;163;229;875;197;477;3667;15501;15801];
[13270;1;1;7;15;15;51;81;187;487;673;865;1915;1009;5935;8097];
[13274;1;3;5;5;7;3;63;77;495;815;391;2321;1007;15661;30715];
[13285;1;1;7;3;17;25;83;173;173;911;1373;2957;4549;15977;17695];
[13289;1;1;7;13;13;23;77;147;497;1003;1687;1795;1393;1881;8479];
[13298;1;3;7;11;27;43;97;25;61;457;203;2573;5943;15021;4003];
[13307;1;3;3;13;9;37;37;25;219;889;1535;2791;4531;13679;12663];
[13312;1;1;3;1;17;7;51;123;89;887;1467;1645;3767;6383;30837];
[13335;1;3;3;1;21;47;5;151;83;257;569;2711;637;12569;16893];
[13345;1;3;7;1;31;37;73;3;115;919;1817;2483;4811;15245;4375];
[13357;1;1;1;5;1;39;39;231;9;733;455;3383;4777;7235;12631];
[13366;1;1;7;9;13;25;55;25;73;59;1699;929;755;1279;5583];
[13372;1;3;5;3;9;49;79;55;479;179;1159;4079;3503;11603;12361];
[13380;1;1;5;9;21;45;31;163;377;817;219;147;2581;12769;30783];
[13384;1;3;1;7;15;27;39;189;493;259;1663;1213;961;11089;16079];
[13395;1;1;5;9;5;41;13;153;313;337;1027;1267;4249;13071;27043];
[13407;1;3;7;3;13;11;23;255;51;527;317;3217;5037;12723;17411];
[13408;1;1;5;1;25;57;83;97;233;513;1283;2675;4111;4111;32141];
[13413;1;3;3;15;25;33;103;81;155;189;139;1179;2691;15119;13959];
[13414;1;3;3;1;25;55;67;19;19;9;437;579;4273;10733;7125];
[13417;1;1;1;7;23;41;47;5;435;749;595;199;3941;7199;4795];
[13437;1;3;1;15;5;49;35;9;199;703;1769;3269;5689;13063;22771];
[13441;1;1;5;5;21;55;125;55;63;149;1167;3577;1051;3921;20545];
[13447;1;3;7;13;29;53;107;193;163;339;1335;1573;5809;5681;29487];
[13456;1;1;1;9;17;9;91;177;211;453;1807;1881;6051;225;6021];
[13459;1;1;1;13;15;1;29;43;181;105;1945;2313;6429;2901;6221];
[13461;1;3;5;11;29;55;115;115;187;1013;697;1885;121;12387;32443];
[13466;1;1;1;7;19;51;21;107;55;125;1655;2281;3293;15749;27521];
[13484;1;1;7;9;19;9;81;93;139;401;193;73;5159;9323;6019];
[13487;1;1;7;9;15;51;115;69;247;599;1163;2251;1211;8827;15581];
[13489;1;1;7;9;5;39;75;185;321;911;849;843;6791;10407;10513];
[13492;1;1;5;5;15;9;21;47;459;681;2001;1545;5939;7073;29043];
[13496;1;3;1;11;13;25;53;97;487;797;567;3757;5597;6313;18531];
[13510;1;1;3;3;29;55;11;219;325;591;2015;383;2595;11855;22501];
[13531;1;1;1;5;15;57;33;125;323;749;1843;4019;2075;6673;6957];
[13538;1;1;5;7;19;7;47;239;51;107;1081;467;5493;7617;10355];
[13543;1;3;1;1;11;3;67;199;175;421;935;309;4449;6363;9183];
[13547;1;1;1;7;9;33;3;219;481;513;417;1267;2863;765;18431];
[13572;1;3;1;1;19;1;89;109;415;105;487;3241;7465;9233;16307];
[13581;1;1;3;13;9;43;25;231;383;789;1855;691;3465;2387;11715];
[13590;1;3;3;3;13;39;63;107;33;265;437;117;3179;5543;28179];
[13605;1;3;3;13;21;5;31;111;321;425;253;3501;3209;15429;18383];
[13612;1;3;5;9;1;27;117;187;433;459;1999;1069;4857;8591;26343];
[13624;1;1;7;3;15;43;11;193;391;341;1203;1259;7265;1783;13161];
[13630;1;1;7;1;5;15;45;143;193;985;1105;3483;2421;9687;22347];
[13632;1;3;7;13;21;17;79;231;487;663;1101;1025;5779;14681;29181];
[13638;1;1;3;9;15;19;55;219;27;963;1513;1017;3907;12279;32655];
[13661;1;3;7;3;31;27;17;1;51;861;529;1225;6395;15787;5231];
[13665;1;3;3;11;27;7;101;143;21;191;1437;2393;4097;14319;6977];
[13668;1;3;3;3;25;35;105;141;433;269;1469;2939;5387;7373;7863];
[13686;1;3;7;5;5;21;23;11;217;357;1847;101;1161;5297;14879];
[13699;1;3;1;3;25;23;81;217;505;161;1667;1343;1751;2463;26431];
[13701;1;1;3;1;17;51;125;205;385;351;731;2911;2749;2689;27031];
[13708;1;1;5;5;5;17;31;171;477;671;167;1797;8047;10123;4325];
[13716;1;1;7;1;11;23;123;161;99;1007;765;1965;5395;16193;17751];
[13725;1;3;1;9;13;11;111;217;31;753;377;2267;7893;7195;24999];
[13730;1;3;1;9;21;53;127;121;151;395;1447;1411;5179;12043;27607];
[13742;1;1;5;3;11;37;97;139;113;835;229;3741;827;5527;5779];
[13747;1;1;7;7;27;55;11;55;429;269;1179;233;1053;10225;16703];
[13749;1;1;1;3;15;9;67;119;95;753;511;2507;3953;6403;27635];
[13753;1;3;3;7;27;57;25;27;249;515;193;4043;2017;751;10949];
[13754;1;3;1;9;31;57;67;21;177;573;1835;2015;6201;2383;31087];
[13771;1;1;5;1;19;3;89;243;69;387;1905;3465;2775;7713;30081];
[13773;1;1;3;3;9;59;15;89;85;605;881;263;2551;797;16541];
[13782;1;3;7;11;25;41;59;139;405;571;1147;2963;4175;12901;6309];
[13785;1;3;1;5;29;29;11;243;183;281;807;1;7079;10079;13865];
[13798;1;3;7;5;5;1;89;55;423;157;675;1849;241;6467;15459];
[13802;1;1;7;11;15;63;89;109;501;549;317;3043;1151;3895;19851];
[13809;1;3;1;15;7;23;97;97;225;737;1117;3325;209;14169;10813];
[13828;1;3;7;13;13;39;91;153;395;879;1041;3753;5577;1985;25247];
[13832;1;1;1;3;17;15;113;143;101;901;1119;1819;3577;3441;31511];
[13840;1;3;1;11;15;27;21;37;287;121;451;1353;2173;299;18791];
[13850;1;3;3;5;23;1;49;145;315;769;99;1385;5961;9121;1465];
[13861;1;3;3;13;21;39;39;233;271;113;615;2257;3765;5921;313];
[13874;1;3;7;7;25;45;11;237;83;203;929;1819;2679;11583;30091];
[13876;1;1;1;7;21;63;85;251;133;991;1515;2547;6051;7279;3569];
[13886;1;3;7;15;11;19;87;17;313;283;1021;2743;4855;13741;17955];
[13897;1;1;7;13;29;13;61;93;81;91;995;907;4847;2599;20041];
[13900;1;1;3;11;13;45;103;33;243;109;2029;121;231;16179;13741];
[13915;1;3;5;9;9;5;73;225;199;723;611;1909;2345;10257;9909];
[13927;1;1;3;11;7;5;33;89;431;899;803;3173;6131;16097;20561];
[13951;1;3;3;7;7;47;23;47;411;69;239;661;5591;10457;24245];
[13955;1;1;5;15;25;35;87;23;115;939;1579;119;4001;13791;9729];
[13962;1;3;5;11;25;45;29;195;369;237;735;155;123;4415;32255];
[13969;1;3;3;9;13;53;15;77;313;75;529;925;5679;14585;19889];
[13979;1;1;7;15;15;27;105;13;31;669;563;1809;4321;7797;4177];
[13988;1;1;5;9;3;29;111;177;33;235;1951;1561;141;4803;16327];
[13998;1;1;1;7;9;41;1;149;95;933;115;1619;771;8189;8781];
[14000;1;1;5;3;13;41;33;159;355;159;1243;1439;6571;14397;31321];
[14005;1;1;7;11;9;15;91;145;457;255;1449;611;1449;2521;28949];
[14027;1;3;7;5;27;57;35;99;447;287;743;1163;4379;7361;3831];
[14037;1;3;3;7;15;53;41;83;133;571;1739;531;2921;11527;21941];
[14051;1;1;1;13;9;27;39;113;429;447;595;3171;5245;4095;14847];
[14054;1;1;3;7;19;19;21;101;489;1011;265;3899;3225;11701;5193];
[14060;1;3;7;3;15;25;103;213;441;215;1483;263;3561;7915;7969];
[14063;1;3;3;3;11;47;97;29;489;867;1347;2155;4871;8001;18305];
[14071;1;3;1;9;25;15;61;17;343;775;1765;3803;4577;8437;12605];
[14078;1;1;5;3;11;39;69;23;23;65;1967;2429;1703;6671;14981];
[14080;1;1;5;15;23;59;125;51;225;439;2019;2589;7781;13111;2911];
[14085;1;1;1;3;1;31;37;245;203;305;821;367;5211;9791;21777];
[14086;1;1;5;9;9;31;97;25;271;83;343;2461;1805;14383;10059];
[14095;1;1;5;13;15;33;127;109;137;963;961;1647;7881;8133;22359];
[14138;1;1;3;7;25;31;123;241;283;1;1781;23;971;6485;127];
[14145;1;1;5;15;15;27;25;145;395;679;979;571;1585;14787;7465];
[14158;1;1;5;7;13;11;7;131;511;597;379;1513;6267;16039;1503];
[14166;1;1;1;13;15;49;73;217;353;577;1913;1127;961;11557;24993];
[14179;1;3;3;9;7;3;105;141;377;687;1917;485;983;11149;23303];
[14181;1;1;3;15;11;7;117;179;505;67;1817;913;5757;1981;1637];
[14188;1;1;1;7;5;29;3;43;223;295;1895;3425;5355;5155;17197];
[14193;1;1;7;9;21;59;121;245;73;233;1527;869;4145;7995;6473];
[14200;1;1;5;13;17;21;89;179;495;669;453;2603;5969;6161;4743];
[14203;1;1;7;11;25;21;103;131;391;249;1633;2603;2207;8987;15487];
[14215;1;3;7;9;13;45;99;251;115;597;1505;2421;1231;10015;24295];
[14224;1;1;5;5;31;49;17;67;463;813;1491;3309;7881;8109;7289];
[14230;1;3;1;15;23;35;123;21;169;499;95;603;1829;7865;26313];
[14233;1;1;7;1;9;29;45;65;95;97;673;3673;2969;2317;22209];
[14236;1;1;3;7;29;33;121;17;331;487;1901;1951;5383;9375;4029];
[14246;1;3;7;9;25;43;91;147;141;401;1647;2697;4645;7179;31857];
[14267;1;3;5;11;9;31;127;105;39;883;1635;919;5069;2875;24519];
[14282;1;1;5;9;1;63;73;135;95;503;385;3903;545;12635;27569];
[14287;1;1;3;11;27;31;47;173;55;339;1255;1947;793;14133;13963];
[14301;1;1;3;15;17;33;113;249;401;743;1307;3123;627;1253;13285];
[14323;1;1;3;1;9;7;39;65;281;107;833;193;2987;12267;31335];
[14325;1;1;7;3;15;21;99;211;39;179;587;1169;6455;8225;2049];
[14329;1;3;5;13;5;13;123;1;223;273;731;2967;4793;4229;26031];
[14339;1;1;1;1;3;17;7;23;225;757;743;1257;2047;12509;25467];
[14342;1;1;7;15;29;3;15;113;227;675;1295;2777;2921;5485;2577];
[14351;1;3;7;13;19;21;85;129;45;599;317;1513;4953;10383;25253];
[14356;1;1;7;11;13;47;127;67;219;131;905;2005;851;15243;5777];
[14359;1;1;5;3;23;57;57;189;153;37;955;2049;1295;15119;27213];
[14370;1;3;7;11;13;61;3;241;269;789;1595;2369;4843;11347;21543];
[14402;1;1;5;5;25;21;19;237;3;605;1343;3965;3511;7889;27759];
[14411;1;3;1;15;21;15;123;5;345;945;283;1313;335;2085;19505];
[14421;1;1;3;3;5;21;123;89;67;11;1247;1155;287;13455;5693];
[14431;1;3;3;13;1;53;101;27;387;379;19;751;2445;11737;975];
[14435;1;3;3;3;9;29;81;117;443;145;1619;1813;8125;5829;28617];
[14442;1;1;5;15;27;15;83;83;61;715;1655;1631;3457;2727;2163];
[14447;1;3;1;5;11;11;121;7;135;883;927;1817;6839;12361;24119];
[14456;1;3;7;11;23;59;39;165;109;355;1303;381;5697;275;3771];
[14459;1;3;5;11;11;5;81;157;55;435;613;127;4087;3791;21627];
[14472;1;3;7;15;13;37;83;195;207;771;51;3685;6389;1229;11101];
[14477;1;3;7;13;31;3;9;13;487;95;77;809;5809;12887;29933];
[14490;1;1;3;7;25;9;13;29;353;659;1785;3825;3729;13109;12973];
[14496;1;1;1;5;21;3;97;1;245;917;29;1429;8141;7569;32493];
[14501;1;3;1;9;19;13;13;109;377;1007;1737;1939;1419;1145;5065];
[14505;1;1;7;9;27;57;53;69;423;43;1629;1003;1473;10809;5659];
[14513;1;1;1;9;1;45;11;231;351;155;663;2783;3491;5725;25207];
[14520;1;1;1;3;15;25;77;89;231;813;657;2603;4885;1383;14499];
[14534;1;3;5;5;9;21;101;181;449;491;737;803;659;11771;545];
[14562;1;3;7;9;7;19;27;199;265;329;1031;1235;3191;10071;16281];
[14576;1;1;7;11;27;55;3;127;503;1003;1041;1953;5835;4851;13485];
[14579;1;1;7;15;5;45;97;61;221;497;1949;3163;4707;8441;1437];
[14585;1;3;5;1;3;35;107;9;473;971;227;2225;3999;3095;18879];
[14586;1;1;1;9;21;59;21;1;41;435;575;491;1839;1095;9727];
[14606;1;3;5;9;13;29;123;251;465;701;1105;829;573;11503;11861];
[14627;1;3;3;13;27;59;29;111;225;973;561;1481;835;9261;13831];
[14630;1;1;1;7;17;3;97;211;333;315;571;3523;7305;6461;20139];
[14634;1;3;7;11;31;21;105;247;113;863;1767;381;4623;8935;7911];
[14636;1;1;5;7;29;45;17;155;69;17;655;1983;6385;6177;7961];
[14647;1;3;3;15;31;15;63;81;309;115;393;3445;689;13963;18887];
[14653;1;1;5;1;19;39;127;61;357;53;195;2745;7853;5753;3669];
[14659;1;3;7;7;17;51;57;145;451;365;1517;909;4265;10737;9579];
[14671;1;1;3;13;3;37;121;103;257;47;1685;2951;5753;15379;8899];
[14674;1;1;5;7;31;63;61;197;97;773;133;1517;3093;14879;22941];
[14701;1;1;5;1;3;9;27;53;97;663;1915;409;471;1391;24853];
[14716;1;1;1;7;21;53;69;5;187;571;2023;997;323;12059;7071];
[14719;1;3;3;1;7;59;55;157;101;123;1301;3709;4673;3897;28791];
[14720;1;3;7;5;5;23;39;139;365;415;1481;3415;6323;11109;5719];
[14725;1;3;5;3;5;11;23;143;243;229;183;3367;3187;8151;28351];
[14730;1;3;7;9;5;37;29;23;437;827;985;2879;7611;1391;19087];
[14743;1;3;3;5;7;9;5;143;217;757;1697;2459;453;8679;4513];
[14747;1;3;5;5;11;33;3;143;293;921;185;2461;5547;12247;28591];
[14786;1;3;7;5;3;53;43;179;235;417;1307;1367;3695;12809;1807];
[14788;1;3;1;11;15;43;115;229;157;25;687;3347;271;5777;8557];
[14792;1;3;7;5;27;37;55;135;209;47;1603;957;5785;11141;10407];
[14795;1;1;1;15;17;17;103;29;489;493;119;1707;3463;1815;32055];
[14809;1;3;7;11;17;13;115;145;77;515;1911;477;5997;8731;3143];
[14831;1;3;1;13;31;41;73;91;231;1;455;2023;4691;3613;16329];
[14834;1;1;5;15;15;39;17;117;131;657;1939;2245;2575;195;25209];
[14850;1;3;7;15;5;51;69;141;499;931;1165;2119;1703;10867;28443];
[14855;1;1;1;15;13;45;45;103;115;177;651;2545;1417;5349;3385];
[14859;1;3;3;1;1;41;117;15;225;861;843;2775;4543;6275;14671];
[14864;1;3;5;15;5;35;87;193;341;55;1131;945;6865;11271;18705];
[14876;1;3;5;9;13;35;71;197;79;351;3;3939;1105;12455;28921];
[14889;1;3;1;13;9;23;89;165;59;257;1369;161;6255;2997;19175];
[14890;1;3;5;3;5;41;107;231;111;207;1865;2079;5891;2487;5863];
[14898;1;3;7;15;3;3;105;235;263;991;367;1885;1769;7805;11909];
[14909;1;3;3;5;15;59;67;247;77;367;1641;1959;1921;5939;17355];
[14917;1;1;7;1;3;53;37;5;221;779;1353;1633;2769;6355;8505];
[14924;1;1;7;13;11;13;73;227;115;523;355;3127;7545;8409;22335];
[14929;1;1;5;11;21;15;91;115;427;683;461;2433;6313;4595;24401];
[14942;1;3;7;5;29;21;57;215;423;717;1455;705;6835;4503;26077];
[14951;1;1;1;15;3;33;25;227;381;477;1023;2751;2229;631;16903];
[14969;1;3;1;11;9;17;59;73;53;671;251;1729;7593;12473;22533];
[14970;1;3;3;1;3;35;37;173;459;143;135;3871;2689;8007;4379];
[14972;1;3;5;9;23;19;43;45;493;509;1851;1615;5675;13793;6973];
[14982;1;3;3;15;5;17;77;85;451;753;579;1057;4851;6017;4195];
[14988;1;3;3;5;31;29;81;159;103;391;15;899;4623;5957;31961];
[14994;1;1;1;7;17;57;81;17;177;633;49;2793;5229;5995;9491];
[15005;1;1;7;15;17;19;65;57;189;239;1229;929;2681;12845;29311];
[15016;1;3;1;11;13;47;61;203;383;875;943;139;4217;8279;1047];
[15024;1;3;7;13;23;7;1;69;47;537;1325;3101;685;14057;19953];
[15030;1;3;3;1;1;7;39;77;47;755;527;2985;5433;15095;27741];
[15048;1;1;7;5;23;57;79;155;81;937;1071;3929;1655;3831;17351];
[15054;1;3;7;1;3;41;13;235;207;487;1883;2247;1231;2751;15615];
[15066;1;1;7;1;21;57;95;191;119;483;283;2221;5665;14819;26097];
[15071;1;3;1;1;9;59;27;51;393;31;925;715;7705;14885;28767];
[15072;1;1;3;3;3;61;109;131;113;249;1331;2521;2973;6375;20093];
[15075;1;3;7;9;31;37;125;245;237;245;111;379;7495;15531;2325];
[15119;1;3;7;13;21;21;57;21;449;969;417;2999;509;639;7797];
[15121;1;3;7;7;7;29;11;175;55;705;891;863;3021;10071;10267];
[15133;1;1;3;13;19;17;127;57;449;579;337;899;1235;11269;4245];
[15138;1;1;1;11;29;61;35;75;249;683;287;45;3277;7521;2073];
[15143;1;3;5;5;15;25;77;63;63;801;1387;1533;2185;10899;28381];
[15170;1;3;1;1;21;49;3;249;419;575;87;3749;2523;16125;9483];
[15194;1;1;1;11;21;43;85;211;449;439;1495;1841;4765;15253;1467];
[15212;1;3;3;15;3;37;31;243;187;995;1103;2723;1523;15967;28649];
[15223;1;1;5;11;9;11;17;87;335;125;1079;1657;1237;8059;29833];
[15229;1;3;1;3;3;41;35;37;33;61;505;3203;5;101;8571];
[15254;1;1;3;11;9;11;85;235;261;473;109;2127;5745;6389;7431];
[15263;1;1;5;15;3;55;77;97;17;193;1267;3063;6531;9797;8639];
[15270;1;1;5;5;25;41;79;83;485;697;149;1023;89;6115;15227];
[15273;1;1;3;15;1;9;73;251;33;599;1017;353;4305;16033;29663];
[15287;1;3;7;15;3;1;89;39;125;337;1445;3131;3685;9849;25829];
[15299;1;3;7;3;19;1;63;179;349;135;185;2977;2527;15087;18133];
[15301;1;1;3;3;23;7;91;221;325;723;345;81;8077;5501;8453];
[15306;1;1;3;9;7;3;13;173;479;161;1989;3255;2069;6717;559];
[15313;1;3;3;5;9;61;93;203;277;367;1141;981;4745;12625;21003];
[15320;1;3;5;5;27;17;5;211;403;701;5;3091;4611;5615;23667];
[15323;1;1;3;1;21;61;125;77;57;463;1499;791;2087;2805;18829];
[15329;1;3;5;3;11;41;125;231;119;837;831;1331;7439;2381;3759];
[15332;1;3;1;11;19;59;117;107;443;699;315;1491;2581;15871;17159];
[15341;1;3;5;11;5;9;121;35;209;877;527;3493;4657;16093;17589];
[15359;1;1;7;15;9;43;119;29;381;479;1443;3171;5053;9625;21161];
[15361;1;1;3;5;15;21;31;223;83;399;1529;3605;6343;10469;10099];
[15364;1;1;3;5;5;45;23;123;353;971;85;3069;3245;6569;13241];
[15367;1;1;1;3;25;49;5;77;491;881;993;1195;7677;5709;10807];
[15379;1;3;3;3;5;49;127;255;183;583;1599;987;7281;7149;28507];
[15391;1;1;5;1;13;55;55;157;197;25;1971;3161;3903;8919;13563];
[15415;1;3;7;9;3;37;79;193;25;103;843;2651;6341;2653;24337];
[15416;1;1;7;3;25;49;99;139;45;211;2033;2331;7037;7177;1755];
[15419;1;3;7;3;5;19;127;135;403;221;141;1065;3935;2745;25979];
[15433;1;1;3;3;31;23;111;37;261;7;835;2379;7927;8181;23751];
[15469;1;3;7;15;1;39;79;3;103;427;1917;809;5039;689;1939];
[15478;1;1;1;15;29;37;39;243;149;353;763;3405;5751;9441;6653];
[15481;1;3;3;11;1;57;125;151;445;423;841;2265;5017;15863;13057];
[15482;1;3;5;13;11;49;61;159;211;917;561;1903;3985;11117;28969];
[15498;1;3;5;13;29;5;35;51;91;291;9;3713;3341;4551;12085];
[15505;1;3;3;1;1;39;111;141;319;179;1709;1605;5063;13279;10003];
[15517;1;1;3;9;7;59;91;41;343;475;1669;2311;5141;12661;25847];
[15518;1;3;5;9;9;11;49;221;1;243;791;229;503;373;19189];
[15527;1;1;5;11;17;13;45;57;215;491;1601;2183;3713;429;22007];
[15528;1;1;3;11;31;61;23;237;261;955;1085;1541;2601;909;7749];
[15545;1;1;3;9;13;11;121;173;177;551;1757;2745;2265;4611;743];
[15548;1;1;3;15;23;43;107;239;463;369;1857;1073;1247;1029;22557];
[15554;1;1;3;11;23;35;89;93;41;941;1141;2339;1423;8007;28685];
[15565;1;3;5;13;29;7;79;15;59;145;1237;2215;1257;12621;31101];
[15577;1;1;3;7;13;55;57;229;205;1009;341;3901;5189;957;32587];
[15580;1;3;7;11;1;1;41;7;365;407;1609;1423;6483;5171;32519];
[15587;1;3;7;3;17;31;125;27;125;335;1395;2639;329;2549;14449];
[15601;1;3;3;7;19;45;11;73;123;179;1685;3385;2379;3387;16793];
[15604;1;3;7;5;31;25;47;153;121;453;935;3953;2081;12145;24979];
[15611;1;1;7;13;25;11;65;3;277;237;1129;1801;4165;9065;18747];
[15616;1;1;7;7;13;5;37;253;507;645;1355;3401;6707;6329;11237];
[15619;1;1;3;15;17;49;3;233;407;451;69;3859;3171;12303;21031];
[15625;1;1;3;3;9;53;119;117;401;903;1449;3639;4083;2095;22085];
[15633;1;3;7;15;5;61;117;193;137;431;195;4019;3047;5049;14281];
[15674;1;1;1;15;17;19;29;83;449;257;1105;1949;1749;3459;6343];
[15681;1;1;1;15;23;39;61;219;109;365;863;1813;6673;15999;5101];
[15691;1;1;5;5;13;11;37;151;365;719;1233;2425;1285;1721;1205];
[15693;1;3;3;3;7;53;109;153;45;425;1741;1229;4405;8071;25155];
[15696;1;3;1;1;1;13;39;49;413;77;1367;2553;5563;7659;3467];
[15712;1;1;5;9;3;49;23;11;445;121;1505;877;4137;1809;2429];
[15717;1;1;1;11;21;13;93;33;493;805;775;2939;2961;13625;31879];
[15724;1;1;7;5;1;59;63;131;373;23;337;2107;5315;4889;22851];
[15727;1;1;3;13;21;47;15;131;353;793;1891;1757;5793;1147;23697];
[15730;1;3;5;13;7;59;25;135;259;109;1835;429;8153;7355;145];
[15746;1;3;3;13;9;47;121;89;89;635;1079;2353;4803;11369;12653];
[15751;1;3;5;9;23;39;49;231;105;603;613;2021;6073;11819;10595];
[15760;1;3;7;7;7;19;19;155;347;387;1459;3793;619;14437;2455];
[15770;1;1;1;15;21;35;19;185;483;425;479;3429;5403;10791;14219];
[15782;1;1;3;11;5;51;105;63;493;677;1457;2865;5619;9321;19583];
[15791;1;1;3;3;23;1;77;177;263;289;1567;3837;5359;3269;16023];
[15796;1;1;7;3;13;61;79;77;51;953;1417;795;4467;2981;25131];
[15808;1;1;5;13;23;13;29;185;337;7;149;3609;8119;9545;16579];
[15814;1;3;1;5;23;9;123;15;99;55;1021;3709;1521;15189;22193];
[15825;1;3;7;9;13;41;39;45;49;181;1587;3213;1037;14775;3333];
[15828;1;1;1;7;29;55;59;31;411;601;191;283;3211;7951;7919];
[15835;1;1;7;7;21;47;7;193;343;831;1267;3289;1015;13093;2717];
[15844;1;3;7;1;17;9;97;19;279;827;1699;3573;3137;3535;17791];
[15847;1;1;5;11;27;15;103;135;35;625;1575;97;7013;13353;19333];
[15853;1;3;3;7;17;13;49;135;435;743;1799;2655;4839;2893;31153];
[15856;1;1;5;1;3;41;1;195;53;803;1575;2939;3873;10495;5211];
[15877;1;3;1;15;19;19;37;59;355;483;685;3899;4645;15127;3479];
[15878;1;1;5;3;25;9;9;229;101;631;1165;4091;3723;10655;9463];
[15887;1;3;5;15;5;13;91;61;19;469;1675;3331;3121;3435;4111];
[15908;1;1;7;1;31;61;23;83;165;551;1097;3825;5385;4723;3635];
[15917;1;3;7;15;9;31;11;121;503;855;561;1647;1229;1147;15997];
[15923;1;3;7;13;21;47;41;195;197;719;1263;3609;7515;2659;30713];
[15930;1;1;1;7;31;61;101;101;479;571;605;301;6633;15587;23665];
[15937;1;3;7;3;25;39;35;225;135;463;53;709;5129;4135;10421];
[15958;1;1;5;13;19;55;107;15;163;287;673;899;5197;4619;3465];
[15977;1;3;3;5;21;49;15;105;283;877;1875;1079;3431;13053;26599];
[15991;1;1;7;1;1;1;95;113;119;575;1159;2325;6895;12177;4369];
[16007;1;1;1;11;25;25;83;207;301;729;1947;2321;3621;15707;11303];
[16011;1;1;5;5;7;63;83;105;211;175;1817;2883;5385;7437;24865];
[16014;1;3;7;5;23;39;19;211;151;295;573;223;5065;6345;23187];
[16021;1;1;7;11;15;31;89;123;57;695;685;1799;659;9929;22933];
[16022;1;1;7;7;19;17;27;137;117;141;1481;869;7061;3073;19671];
[16028;1;3;3;11;9;19;123;93;39;517;883;3769;2267;8089;6617];
[16035;1;3;1;7;9;61;51;241;319;853;1239;899;105;1677;29351];
[16041;1;1;7;15;13;59;85;175;223;87;905;3175;3405;3489;18475];
[16056;1;1;1;15;1;55;79;97;315;605;851;4015;3689;9371;31523];
[16069;1;1;5;15;1;39;91;27;211;881;1375;2307;5791;10185;23093];
[16076;1;3;1;5;3;17;59;219;105;623;21;2843;3427;4799;3793];
[16081;1;3;3;7;21;55;17;29;397;93;1981;4047;935;5971;14589];
[16087;1;1;3;9;5;57;63;27;373;815;167;205;367;4945;30041];
[16088;1;1;5;9;7;3;69;35;197;309;1729;3735;1523;10427;26253];
[16110;1;1;3;7;7;49;35;189;297;311;2025;305;3863;14393;2533];
[16112;1;3;3;9;17;31;5;17;167;601;909;3149;2533;12123;25325];
[16117;1;3;5;3;11;41;69;199;79;611;133;3519;5955;4609;27403];
[16150;1;3;3;13;3;17;53;165;361;797;1447;869;6707;6541;32249];
[16153;1;3;1;1;29;47;17;45;473;199;1595;3095;3635;6965;21859];
[16160;1;1;3;9;1;15;59;163;91;811;1087;1707;6743;12643;29901];
[16166;1;1;1;3;19;21;7;209;121;821;709;1085;5333;7689;28355];
[16172;1;3;1;15;5;27;115;31;37;79;1347;155;3709;13251;32151];
[16190;1;3;7;15;27;27;127;231;137;205;1665;1461;299;2797;879];
[16195;1;1;1;7;13;3;127;13;253;481;1435;1895;2665;7611;17761];
[16204;1;1;3;7;7;21;71;247;301;183;1785;331;4835;2251;4493];
[16216;1;3;7;9;9;1;77;169;103;647;1959;1847;5803;3421;15915];
[16222;1;3;1;7;19;17;81;45;263;549;1607;2177;1117;14427;16451];
[16228;1;1;7;15;27;25;27;27;33;813;1667;253;2749;927;29707];
[16245;1;1;7;3;17;29;13;67;417;303;19;3809;7225;12775;3933];
[16255;1;1;1;11;13;41;77;217;281;659;1099;3047;1619;525;4313];
[16265;1;3;3;9;23;47;5;33;219;531;77;2307;1893;8335;8281];
[16273;1;3;7;3;3;35;27;249;159;495;431;3001;1475;11505;15693];
[16276;1;1;5;9;21;49;43;159;465;959;179;993;121;11569;21027];
[16283;1;3;1;5;1;61;9;221;231;55;191;2829;3331;8911;15109];
[16295;1;1;7;1;7;35;67;97;159;191;935;3151;6397;10751;1835];
[16304;1;1;1;7;15;39;127;163;437;333;829;753;8151;13239;523];
[16313;1;1;3;13;9;25;73;155;445;239;2035;15;5243;15531;1733];
[16319;1;3;7;15;5;25;3;55;117;57;783;1509;7043;13159;8557];
[16328;1;3;5;1;21;55;89;119;199;79;161;1597;3263;3335;5757];
[16345;1;3;7;5;27;23;85;113;111;211;389;1513;2759;7945;931];
[16355;1;1;1;7;1;5;17;177;357;619;5;2583;621;2973;28845];
[16364;1;3;7;13;11;21;47;99;421;279;1541;1305;4571;6127;20735];
[16372;1;3;5;5;23;43;19;137;425;409;1625;2671;4385;3197;25753];
[16375;1;1;7;5;27;17;57;15;383;181;951;2115;5237;1495;9671];
[16382;1;3;3;11;9;1;53;127;375;499;1487;121;1465;3175;24337];
[22;1;3;7;11;29;35;67;129;221;439;1159;3501;7741;8885;11381;20707];
[28;1;3;5;11;29;59;23;117;343;637;1825;1687;2823;11641;3311;23603];
[31;1;1;5;11;1;35;103;155;233;575;1761;503;4175;6105;29737;32681];
[41;1;3;3;1;5;63;27;71;245;433;1779;2475;5479;4705;10795;34247];
[94;1;3;5;7;29;45;117;5;393;849;843;3131;6995;9979;28907;30115];
[107;1;3;5;9;27;29;69;5;395;561;1531;409;2779;8785;16405;27315];
[151;1;3;1;9;15;29;85;3;331;19;1941;567;6957;747;1627;11347];
[158;1;1;3;9;27;45;47;127;133;921;1817;2231;6333;14371;12799;9831];
[167;1;1;5;15;31;7;125;13;455;159;331;3629;4705;11261;3657;36307];
[174;1;1;5;9;11;53;51;35;87;885;1975;3899;1013;7667;32385;33635];
[203;1;1;1;3;7;45;107;177;193;765;731;139;5563;623;16485;54999];
[208;1;1;5;9;17;53;117;69;385;587;1483;149;2769;3013;18183;10173];
[214;1;1;5;11;5;3;25;153;351;749;801;3077;3209;11189;25241;14115];
[223;1;1;7;9;1;47;41;247;135;163;899;1517;5647;10595;32531;12497];
[227;1;3;5;11;5;61;111;215;251;279;825;2155;3527;173;10973;59257];
[266;1;3;5;11;25;15;71;83;135;231;1415;3761;7513;8337;28979;43615];
[268;1;3;5;13;19;5;55;165;141;119;1891;2255;4735;16217;26195;50527];
[274;1;1;7;15;23;59;59;191;1;855;453;2619;5013;14749;24335;44339];
[279;1;1;1;13;15;41;51;147;229;495;1191;867;1525;581;29713;26391];
[302;1;1;1;9;29;5;59;127;105;417;301;2249;6335;3513;17373;52977];
[310;1;1;3;7;21;27;109;143;63;347;1429;2889;2597;10243;9913;22687];
[322;1;3;5;5;7;3;125;147;313;351;1163;415;5615;5571;7089;55621];
[328;1;3;3;3;31;43;101;93;9;671;135;333;2169;11169;7403;50707];
[336;1;1;7;13;15;33;125;155;227;827;1047;2441;3007;10881;19969;63805];
[370;1;3;3;5;31;33;29;249;159;797;1475;841;6933;6417;25629;61865];
[398;1;3;3;15;11;55;11;117;149;911;1589;3133;6477;6123;10471;41099];
[421;1;3;3;9;27;37;1;119;509;969;831;3771;2093;13621;31737;43269];
[436;1;1;1;1;9;23;119;109;487;753;1673;2163;3349;4741;29971;3407];
[440;1;3;3;7;25;7;67;9;461;631;651;2271;5663;2621;3953;20975];
[451;1;1;5;11;13;31;29;255;371;517;845;3649;1187;10061;22887;58417];
[454;1;3;5;13;29;1;11;137;151;249;167;1243;997;11023;11875;42315];
[463;1;1;5;5;5;55;103;71;255;1023;209;1005;2147;11527;17863;6661];
[465;1;1;3;3;31;39;7;151;353;775;1313;1257;4197;2625;9571;27269];
[494;1;1;1;3;7;17;3;127;501;503;1879;2329;3049;10603;2111;33189];
[508;1;3;3;7;13;59;93;13;375;483;1991;2257;3003;1699;4339;51827];
[532;1;3;7;15;27;41;59;225;405;807;1545;2581;1173;14137;3413;39299];
[555;1;1;1;3;9;23;37;123;465;1023;1065;1455;5107;3839;20451;11461];
[563;1;1;1;11;19;55;91;121;317;199;215;3031;7223;11891;21463;64921];
[577;1;3;7;11;19;5;5;115;399;219;71;1465;281;14451;26807;42541];
[580;1;3;5;13;3;33;75;35;19;559;761;947;7479;15325;31453;20561];
[584;1;3;3;13;23;47;99;73;331;353;401;1737;6235;13781;5547;56443];
[607;1;3;3;13;21;37;41;205;87;399;51;3175;7403;12875;21129;7079];
[608;1;3;5;11;15;47;33;39;465;871;277;2351;695;1953;24293;20595];
[665;1;1;7;11;13;15;115;59;469;715;191;1927;905;13463;29005;46789];
[675;1;3;5;9;13;55;79;17;265;887;905;3985;6907;3379;20055;58569];
[692;1;1;7;11;21;29;23;109;17;427;1623;2219;3857;3709;25033;63823];
[707;1;3;5;15;19;27;113;15;25;63;1885;2693;5301;9385;14137;26097];
[737;1;3;3;11;17;5;73;143;79;957;461;1709;4909;2285;18113;8401];
[750;1;1;3;7;9;9;101;127;137;755;1359;1965;83;13335;27763;7941];
[757;1;1;1;3;13;61;95;61;295;615;555;2163;8155;14043;21465;46741];
[800;1;1;1;13;29;19;111;17;373;153;1703;2199;7209;15845;1879;7493];
[805;1;3;1;13;21;51;49;51;255;151;207;1915;7629;2705;8739;7467];
[809;1;3;7;5;21;21;23;193;467;739;519;2315;2953;10633;9163;6007];
[837;1;3;1;5;23;19;23;247;93;297;1089;2349;4683;13609;7615;18647];
[865;1;1;3;3;21;39;19;71;93;1;133;3531;7503;2819;24211;1739];
[949;1;3;5;13;9;43;31;111;493;739;705;2715;3613;11877;27945;46053];
[950;1;1;7;13;27;59;103;129;53;531;1379;1441;5341;14937;5079;39881];
[956;1;1;3;3;11;63;91;95;433;393;715;809;591;4141;17417;54107];
[961;1;3;5;1;7;25;25;175;205;803;183;1441;1279;2753;20001;56677];
[1016;1;1;5;3;13;23;77;25;133;137;1907;1313;2463;14339;13;57757];
[1030;1;1;5;9;23;35;1;119;111;61;403;1815;1985;5651;10883;55943];
[1072;1;3;1;7;21;43;115;7;107;719;759;1521;467;8735;29785;63821];
[1119;1;1;3;13;19;17;51;141;399;569;703;2221;2809;13355;1907;15837];
[1130;1;1;5;15;15;53;57;31;481;69;1439;4049;6727;11307;20683;63517];
[1135;1;1;1;3;13;27;9;255;363;131;1745;2489;6451;6585;12873;35405];
[1137;1;3;5;1;17;31;113;135;449;915;1017;2317;6821;5483;30707;45279];
[1144;1;3;5;1;13;47;25;53;413;545;1777;3049;7527;9689;25935;9919];
[1149;1;3;7;11;17;39;13;131;295;517;1755;2977;6267;12351;8957;17765];
[1180;1;1;7;5;27;57;47;21;125;429;1169;1717;5455;16359;29065;6671];
[1214;1;1;5;5;21;15;79;241;83;515;859;2351;3125;7465;30475;19759];
[1221;1;3;1;9;11;5;81;11;7;221;141;3329;3435;323;18999;54735];
[1234;1;1;1;15;7;57;87;251;63;561;929;1367;2511;14527;9335;38775];
[1239;1;3;3;9;23;37;59;105;179;515;235;2445;433;13039;27005;48829];
[1249;1;1;1;1;23;37;103;31;89;921;1687;831;387;10237;1241;19295];
[1250;1;3;3;7;25;23;57;251;309;579;603;807;7383;8579;4025;16757];
[1267;1;1;3;15;23;59;29;33;467;641;1271;2915;2549;14767;26557;43483];
[1273;1;1;7;13;1;57;23;129;321;75;189;4087;5011;4355;25759;37153];
[1342;1;1;5;1;21;57;25;183;37;669;259;1381;877;10245;16643;61035];
[1344;1;1;7;5;11;11;85;141;393;957;1745;2243;1681;5583;16527;12017];
[1373;1;1;5;15;23;31;5;169;287;527;1831;2937;7533;9739;24305;2239];
[1378;1;1;7;1;7;13;3;243;189;309;607;3659;6369;7649;24255;55373];
[1408;1;1;1;3;3;59;103;209;287;913;1223;1063;7715;6073;26697;25671];
[1417;1;3;7;5;19;19;117;191;275;637;991;2199;2921;10553;21211;25981];
[1418;1;3;3;5;29;59;17;13;127;57;1405;3181;2237;1795;21419;43421];
[1448;1;1;1;15;25;41;11;117;463;425;305;1441;4307;7967;17529;4043];
[1454;1;3;5;5;19;53;69;73;453;611;1583;1721;6303;10561;18527;48973];
[1510;1;1;7;11;15;61;87;69;463;771;819;469;8165;8897;29657;55161];
[1513;1;1;5;1;15;25;23;47;287;457;1219;473;4127;3349;9425;41541];
[1522;1;3;7;5;17;17;33;161;239;231;241;1297;4879;12761;20939;65261];
[1543;1;3;3;9;19;53;95;89;117;333;1815;2217;7779;8213;4667;58395];
[1550;1;3;3;9;17;7;41;99;371;797;729;2851;2003;4463;20793;54315];
[1552;1;3;5;5;23;39;19;235;163;365;141;791;455;2761;9115;53351];
[1588;1;3;3;3;9;27;29;139;165;867;2023;1333;3771;10451;9141;41177];
[1592;1;1;3;7;3;11;125;157;355;519;187;3381;1151;1629;25247;42797];
[1597;1;3;3;3;21;25;37;155;257;311;961;1945;1383;5679;7857;7183];
[1606;1;3;3;5;29;11;49;125;171;605;1923;2781;2555;5063;5075;43301];
[1610;1;3;5;9;27;1;27;149;253;205;1299;2901;2891;975;7641;8115];
[1617;1;3;5;3;31;7;49;215;81;791;1485;837;5051;1947;7521;25723];
[1623;1;3;5;7;23;25;69;13;3;859;441;3577;1687;6559;8687;46757];
[1657;1;1;1;9;1;59;3;31;251;187;617;2607;4635;6121;8565;8871];
[1697;1;3;3;9;29;37;127;87;153;633;1691;2729;3167;3219;21237;25573];
[1729;1;1;5;13;19;63;93;235;299;621;405;663;6639;12265;9303;42719];
[1735;1;1;3;9;25;11;9;231;101;335;1793;1497;7069;4171;30199;63];
[1769;1;1;1;1;5;19;17;217;165;413;925;1409;6559;14537;22057;44331];
[1778;1;1;3;7;11;51;45;217;57;795;951;2933;6705;137;30525;9679];
[1826;1;1;3;15;27;47;35;125;363;619;1027;2861;3923;10459;16789;27277];
[1858;1;1;7;7;13;37;33;29;385;851;143;119;7345;4251;25121;31609];
[1870;1;3;1;1;17;25;119;7;365;397;601;2087;6903;15345;14671;37889];
[1875;1;3;1;13;19;51;41;139;133;723;25;2621;1257;7037;9527;50037];
[1922;1;1;5;11;5;59;119;75;397;545;1095;585;3271;1049;123;33029];
[1924;1;1;7;11;9;27;21;197;177;31;453;2457;2733;7787;1923;24639];
[1933;1;1;7;13;29;13;91;91;243;279;601;1699;7169;4727;7815;29099];
[1972;1;3;7;5;1;35;27;235;163;913;1479;769;7179;1983;25977;55373];
[1979;1;3;5;11;9;33;99;141;301;109;1785;129;1707;5181;4797;9979];
[1987;1;1;1;13;3;47;89;43;293;87;1689;3885;7747;5607;477;31887];
[1994;1;1;5;1;9;21;73;37;45;621;1855;3691;4899;2191;13459;23543];
[2008;1;1;1;1;7;39;61;125;341;905;213;1755;241;13407;8791;10165];
[2023;1;1;1;1;19;31;79;19;55;875;1017;1787;4879;533;15029;52295];
[2029;1;3;1;1;9;59;113;71;113;649;561;71;5253;783;7389;19361];
[2053;1;1;1;11;5;39;61;225;291;907;795;1099;597;11829;15137;42865];
[2081;1;3;1;5;25;11;71;155;271;309;1981;1253;463;1133;20833;48625];
[2087;1;3;5;9;7;41;87;241;457;899;1493;3675;3025;10607;22569;52813];
[2094;1;3;7;13;7;37;37;103;281;915;1259;4049;559;173;4123;63767];
[2111;1;3;7;15;13;57;9;51;39;549;1431;2887;1081;4643;16331;14221];
[2113;1;3;5;7;13;1;101;125;25;713;1423;513;3323;9951;7163;20969];
[2114;1;1;7;15;11;25;25;3;47;531;1529;471;6191;10051;29671;49085];
[2123;1;1;3;5;23;51;117;141;55;275;761;1923;6267;2291;3701;26615];
[2190;1;1;7;9;15;19;111;65;137;373;1753;3591;1137;11639;28591;27265];
[2231;1;3;1;15;29;5;67;13;425;961;453;2481;1407;3479;23303;30407];
[2276;1;1;5;3;19;39;39;123;351;77;1339;1765;3767;1907;13627;23877];
[2285;1;3;5;9;23;7;103;177;221;197;561;2121;7231;12053;30127;29849];
[2297;1;1;5;7;15;1;3;123;197;493;171;2425;3865;4061;31883;2491];
[2336;1;1;3;13;29;33;99;67;327;969;1793;1871;1839;13059;7605;16797];
[2345;1;3;5;11;25;53;25;93;303;623;1889;1471;1213;14459;8527;25095];
[2353;1;1;1;13;15;3;115;3;289;743;1855;359;2375;13765;19711;40765];
[2363;1;1;7;11;27;51;85;163;219;871;637;2011;5981;587;17521;17333];
[2368;1;3;5;1;21;59;49;39;305;513;2017;285;5817;13123;27765;46741];
[2373;1;3;3;7;21;39;71;163;423;845;783;397;7319;10677;13407;47471];
[2391;1;3;7;5;21;59;99;179;473;687;1393;723;2245;2933;25943;7769];
[2402;1;1;5;9;5;45;71;189;165;555;643;2289;3133;12319;22209;1533];
[2413;1;1;3;9;7;43;1;155;323;169;339;2561;4049;4953;5289;8783];
[2422;1;3;1;11;15;5;25;201;267;891;561;501;575;15147;1743;45237];
[2425;1;3;5;13;25;27;105;205;165;795;975;943;7413;10299;14839;54895];
[2461;1;1;5;1;17;43;69;103;449;917;103;945;513;709;11647;28065];
[2462;1;1;3;15;23;51;23;7;159;743;177;3457;415;1775;25353;36385];
[2490;1;3;5;13;9;63;121;19;165;449;1523;1959;6901;12281;29149;45999];
[2492;1;3;7;11;17;19;9;155;373;753;1313;2205;3571;16317;16151;15325];
[2510;1;3;3;7;15;43;65;183;407;123;1151;375;3461;6673;12985;21005];
[2564;1;3;7;7;9;1;87;247;489;123;1677;1947;7961;13497;27919;28993];
[2573;1;3;3;7;19;21;95;227;217;133;69;1535;699;3521;29255;34733];
[2598;1;3;5;3;7;57;45;251;407;81;1259;2425;2217;13097;12773;14643];
[2627;1;1;1;11;23;37;13;229;467;591;1521;469;3763;2289;14233;24053];
[2633;1;3;5;1;27;53;105;5;85;765;1973;2597;5725;1063;18145;961];
[2647;1;3;7;1;21;47;115;95;403;3;1593;3379;7371;15553;12503;57979];
[2660;1;1;3;1;1;35;121;29;379;245;919;2673;3503;14197;31193;8355];
[2664;1;3;5;11;19;49;97;7;195;1013;1671;3415;2009;13389;4837;27453];
[2678;1;1;5;13;9;15;115;97;463;449;303;2681;1215;12559;15685;21321];
[2684;1;3;5;13;23;5;113;193;419;301;1121;317;5503;4683;25519;65];
[2691;1;3;3;7;15;29;45;97;323;475;143;1173;4033;8939;31849;3575];
[2759;1;1;7;7;21;1;101;143;197;409;855;1753;5211;3763;11139;37309];
[2768;1;1;3;13;25;33;55;45;381;349;991;535;4823;3701;31629;48037];
[2773;1;3;1;11;17;51;27;57;409;551;949;365;8093;10831;19697;39437];
[2794;1;3;5;3;31;33;81;49;91;865;469;2115;377;8237;31907;38239];
[2813;1;1;3;7;29;59;57;17;121;889;1557;1797;5001;14209;21355;59739];
[2831;1;1;5;9;11;45;89;87;397;785;525;1593;5251;12449;23579;54265];
[2843;1;3;5;11;5;31;19;47;207;331;91;1691;5171;53;15945;33349];
[2846;1;1;1;15;11;41;91;177;505;871;815;3673;5631;9915;1133;37861];
[2849;1;3;5;5;25;63;53;231;55;51;481;303;1859;11973;28557;22045];
[2856;1;1;5;3;27;11;37;91;363;411;1131;3369;377;6585;7353;42949];
[2893;1;3;1;9;31;63;83;23;405;941;119;1471;2509;15507;29239;49613];
[2901;1;1;5;1;11;63;117;237;407;231;1425;71;8005;4023;9029;59819];
[2924;1;1;5;7;1;9;43;87;351;63;1075;3381;5447;2437;24983;26905];
[2942;1;3;7;5;5;35;33;89;251;819;1735;2625;6363;6837;27603;26669];
[2975;1;3;7;13;29;63;51;245;371;791;907;3499;3033;8443;20023;1805];
[2979;1;1;5;7;13;15;109;197;451;709;929;3193;5727;11185;29479;1671];
[2985;1;1;7;13;19;23;97;9;359;635;777;39;893;2531;13563;19295];
[3020;1;1;5;1;31;63;55;7;157;877;991;1317;1595;2019;21435;52255];
[3025;1;1;5;3;19;37;23;13;335;431;483;615;2431;505;26245;63323];
[3028;1;3;7;5;5;9;37;65;303;423;1907;2661;7213;2975;29045;16243];
[3051;1;3;1;5;13;37;115;217;227;159;707;1387;943;4935;5503;35171];
[3127;1;3;7;9;19;15;87;233;453;159;169;1077;2129;413;19773;629];
[3142;1;1;5;15;29;39;37;243;233;365;1843;2219;1255;15287;603;13511];
[3145;1;1;3;3;31;53;33;125;497;597;127;1829;3905;2611;4263;40971];
[3156;1;3;5;9;11;47;71;215;383;321;1445;135;5953;8791;22073;16537];
[3165;1;3;3;13;15;7;7;133;401;459;1117;3165;4105;11943;22431;56821];
[3196;1;1;7;9;31;39;19;7;19;401;79;3641;6815;1489;7537;49467];
[3199;1;3;7;7;17;11;91;205;251;321;515;3521;311;3169;271;34749];
[3217;1;3;3;7;29;15;5;153;83;603;1373;997;4939;9811;243;5375];
[3218;1;1;3;11;21;47;25;221;237;177;535;2819;6213;7877;26795;36609];
[3253;1;3;7;3;31;1;69;73;47;653;139;1649;7183;1293;26507;38415];
[3258;1;1;1;13;17;41;23;73;115;509;787;3733;1871;171;29967;39941];
[3260;1;3;5;1;9;7;61;23;105;381;1421;2887;3717;643;26375;57991];
[3289;1;3;3;3;19;3;101;117;393;83;1255;3331;6481;8661;20855;28875];
[3314;1;3;5;11;21;13;111;193;51;899;159;1989;7931;10511;3933;447];
[3326;1;1;5;15;23;35;49;139;397;145;597;1847;7077;715;20227;42183];
[3331;1;3;3;3;17;3;87;233;35;317;337;237;6901;3439;20033;10307];
[3371;1;3;5;3;11;35;13;171;7;963;1443;1501;7617;963;25453;62589];
[3381;1;1;1;5;11;9;39;175;409;411;1407;2743;4255;989;15823;1707];
[3396;1;1;7;13;27;55;63;239;355;417;2007;2299;2921;1637;10687;60615];
[3441;1;1;7;9;5;61;57;73;263;307;2003;1763;639;5885;14709;16985];
[3442;1;1;3;3;21;55;19;249;509;533;1361;1397;2777;15523;4389;13339];
[3460;1;3;5;15;9;3;91;237;451;299;1541;4083;879;7859;21585;14833];
[3477;1;1;7;3;31;47;49;231;123;391;1633;2567;5577;1631;27951;22913];
[3491;1;3;7;13;11;13;1;111;183;87;839;1915;5523;3677;13065;38225];
[3493;1;1;3;7;15;15;63;241;167;345;653;701;4725;12911;11545;24475];
[3543;1;1;3;7;25;15;49;235;331;639;965;1117;7147;3789;3309;20255];
[3549;1;3;5;7;7;63;93;241;253;31;951;3723;3359;7303;191;36427];
[3550;1;3;7;9;9;59;5;107;181;413;1269;3121;1929;11921;8931;47459];
[3553;1;3;1;15;25;27;13;47;295;111;1287;2551;4887;4145;17063;42037];
[3563;1;3;3;13;17;17;21;17;491;845;1463;1305;1375;16149;19331;25043];
[3568;1;3;5;1;27;5;93;139;283;711;1141;1743;5001;8851;19351;12275];
[3604;1;1;1;1;23;25;51;63;429;735;201;3785;6677;16375;19681;17857];
[3632;1;3;3;3;9;63;71;147;463;465;1163;1045;6967;12537;31853;38391];
[3650;1;3;7;1;5;51;79;239;389;3;601;3787;7635;16295;1681;63971];
[3662;1;3;1;3;5;31;103;89;321;971;783;3685;1155;10353;2167;35423];
[3674;1;1;5;15;25;19;93;59;361;217;1141;597;5877;15961;1593;22925];
[3685;1;3;1;9;25;59;69;89;477;89;487;237;5625;9579;30421;21883];
[3686;1;1;3;7;1;5;13;225;9;981;1081;1407;6855;15215;21713;62313];
[3700;1;1;7;15;11;13;119;109;151;245;1195;3741;755;8047;15431;21001];
[3703;1;3;7;3;17;47;107;137;99;255;1597;3281;5779;13487;15061;19199];
[3704;1;1;3;3;9;39;77;227;511;839;1375;3887;25;14763;13259;217];
[3723;1;3;5;7;17;3;87;61;439;287;709;4085;4251;8945;28203;24011];
[3743;1;3;1;1;29;25;49;101;209;359;285;1593;4161;2943;23225;6381];
[3753;1;1;3;13;1;45;87;7;491;399;905;1403;4791;7419;14355;47767];
[3756;1;1;7;15;13;25;111;197;297;301;499;4007;2235;7681;4641;32447];
[3759;1;1;3;3;27;41;97;83;405;353;1609;201;1503;10673;29377;20445];
[3762;1;1;7;3;9;47;65;191;207;545;377;3011;7361;3467;14073;46769];
[3771;1;1;7;5;7;39;9;91;187;949;1829;161;3689;4145;32675;23263];
[3776;1;1;5;9;29;9;83;113;77;673;613;3645;6671;8583;27701;18615];
[3779;1;3;5;9;29;13;127;247;285;845;463;539;4441;1867;12469;16213];
[3839;1;3;7;15;1;29;47;157;239;595;563;1103;3431;2849;28125;19969];
[3856;1;1;1;15;25;13;1;131;57;257;2021;169;7603;10721;21675;63171];
[3871;1;3;5;3;5;19;31;57;275;381;775;681;1145;12237;5141;29375];
[3887;1;3;5;13;27;13;47;201;267;581;1563;3845;951;7209;27253;19755];
[3896;1;3;5;15;19;35;57;17;61;273;967;3029;1747;1753;31321;23711];
[3901;1;1;1;5;13;13;7;177;335;393;1401;1411;4703;8259;1281;39835];
[3916;1;1;3;15;25;27;27;121;183;105;663;1375;6987;7151;13763;39323];
[3919;1;3;7;5;15;1;81;129;455;163;675;81;3735;14409;7269;16425];
[3937;1;3;3;11;13;7;79;157;165;663;229;3539;1837;6485;30729;42157];
[3943;1;1;5;15;9;9;9;47;133;863;43;1461;511;13991;24781;19221];
[3955;1;3;1;7;31;33;103;13;159;689;1353;4025;6051;7683;1741;30047];
[3961;1;1;3;11;5;45;71;219;475;585;1207;3163;4661;4713;12729;30445];
[3988;1;3;7;5;5;53;101;227;129;521;91;1129;4683;11235;24697;45055];
[3997;1;1;3;13;1;43;7;1;73;857;1713;185;1685;2369;24187;40419];
[4011;1;1;7;7;21;7;13;177;503;1003;1091;2411;1433;9063;13901;3329];
[4026;1;1;7;1;7;41;99;203;325;249;1763;545;2981;14125;7815;11385];
[4033;1;3;7;11;3;11;95;137;325;701;1177;1631;4483;2955;30229;25577];
[4045;1;1;7;7;17;45;77;103;143;97;1963;3635;1539;10491;23483;22767];
[4060;1;1;7;15;7;5;81;63;243;55;39;207;2315;8285;8155;11631];
[4063;1;3;5;15;23;19;115;9;125;851;161;3767;3513;1855;11139;1719];
[4064;1;3;7;11;11;23;15;13;235;5;1039;1425;6485;5539;8967;64809];
[4126;1;3;5;7;19;11;83;135;45;905;1081;1857;3185;13555;21365;38143];
[4136;1;1;5;1;25;27;119;109;167;847;1539;2653;797;11185;23501;22389];
[4167;1;1;7;7;11;3;51;97;277;557;207;3645;825;8521;26653;60071];
[4173;1;3;3;15;17;35;57;7;267;549;97;243;1137;10311;6737;19077];
[4188;1;1;1;15;23;33;27;203;415;1023;1145;1881;7715;4413;3727;5185];
[4195;1;1;3;3;13;47;63;13;75;505;595;2911;4029;14187;23151;42877];
[4226;1;1;5;15;23;5;11;65;147;675;1961;2177;727;15077;23759;10195];
[4291;1;3;5;9;9;39;69;229;341;627;1331;3139;3921;9219;14887;4659];
[4298;1;1;7;3;1;35;49;71;165;83;719;2771;6475;7821;16709;4449];
[4308;1;3;5;5;23;15;3;57;465;77;121;3767;6841;13601;12035;14075];
[4312;1;1;7;3;3;23;45;131;287;941;713;415;6865;14209;29555;55493];
[4336;1;3;5;11;29;35;55;75;225;779;569;1795;1377;12765;19081;47287];
[4371;1;3;7;3;31;47;127;89;157;737;1395;3615;7923;14731;15797;40061];
[4378;1;1;1;11;21;37;21;59;9;141;193;3095;3435;12371;26931;61861];
[4384;1;1;3;7;13;51;15;153;77;1013;651;3949;6229;14297;1039;46139];
[4393;1;3;3;13;7;43;95;61;217;3;549;739;123;3661;15375;13919];
[4421;1;3;5;9;13;37;101;89;55;413;1089;775;7575;13063;31393;29583];
[4425;1;1;3;9;25;63;119;143;499;145;603;2067;4713;13457;14053;117];
[4439;1;1;5;9;7;23;57;253;115;591;2003;63;7615;11493;28519;47087];
[4440;1;1;7;3;7;53;121;33;233;645;1093;1697;7213;2603;10743;51303];
[4500;1;3;5;7;13;31;17;125;93;969;159;1529;7165;7371;8707;56953];
[4514;1;3;3;1;13;9;91;25;171;843;1635;2043;1043;15893;11409;53689];
[4523;1;3;5;7;13;19;89;97;203;923;1109;2061;463;11703;8925;56015];
[4534;1;3;5;11;5;21;79;237;195;649;717;211;919;12855;3045;39659];
[4593;1;1;1;15;13;19;21;69;393;257;1263;309;3209;8403;24467;6467];
[4615;1;1;1;11;7;27;59;117;379;353;943;2513;3869;4567;12989;13139];
[4630;1;1;1;3;13;43;11;15;149;237;1555;71;2357;15773;21419;40571];
[4636;1;3;1;9;19;23;59;215;15;921;1729;249;3785;7171;1233;3449];
[4645;1;1;1;7;7;37;63;205;75;599;951;2513;3347;2497;8019;5433];
[4684;1;3;3;15;27;17;25;201;23;699;1525;465;1115;12299;14747;40363];
[4687;1;1;1;3;29;59;115;233;107;815;291;3821;7325;7381;21445;33917];
[4723;1;3;1;11;11;33;107;171;421;893;587;3373;4101;3885;25383;12035];
[4735;1;3;3;7;5;23;43;51;357;77;1327;2995;1321;1571;26419;23603];
[4746;1;3;7;9;27;57;101;51;215;215;469;303;723;2903;30569;42631];
[4779;1;3;3;13;1;7;63;205;143;321;1439;253;2667;1271;11761;55631];
[4782;1;1;7;9;3;7;7;15;503;875;1619;1715;5047;5665;5503;17745];
[4793;1;1;7;15;19;49;65;31;245;371;377;2963;6185;5519;10743;33231];
[4796;1;1;7;3;25;27;115;51;299;451;285;1709;6153;14881;17861;22071];
[4813;1;3;1;5;21;21;127;185;325;995;213;3279;4769;15943;2589;29567];
[4850;1;3;7;5;21;9;63;59;159;743;663;2965;97;8993;25633;29033];
[4867;1;3;7;13;3;35;59;101;21;659;1531;3995;795;2143;21749;52715];
[4874;1;3;3;15;27;29;95;1;501;425;417;2351;7877;4127;3633;23347];
[4881;1;3;5;7;7;49;55;19;329;467;425;1609;6987;16123;26879;42883];
[4894;1;1;1;15;17;21;13;13;85;7;677;3739;5491;6299;29957;55765];
[4904;1;1;1;7;31;21;1;5;193;659;979;3409;3151;6615;7445;8151];
[4927;1;3;1;1;11;61;27;205;263;805;955;3469;1233;1609;15329;13353];
[4929;1;3;3;9;3;29;59;75;149;557;663;3887;3369;3397;10611;9511];
[4989;1;1;7;13;29;21;101;139;99;411;569;2343;6901;1685;20599;49543];
[5000;1;3;3;15;11;3;87;89;5;293;291;1405;1489;9877;32505;32263];
[5020;1;1;5;5;19;45;89;5;381;253;1339;707;4645;14177;29441;8965];
[5036;1;3;7;15;27;45;25;177;81;229;1339;2143;6547;6841;23449;14813];
[5041;1;1;1;3;27;23;81;157;53;513;1435;277;2353;3545;21461;51479];
[5059;1;3;1;3;3;17;75;139;283;881;1157;2081;937;14549;10215;13053];
[5074;1;1;7;9;25;27;27;133;21;559;225;613;6931;11785;23413;35757];
[5090;1;1;3;13;19;9;65;49;453;779;621;1151;1807;13269;6515;17113];
[5110;1;1;1;13;21;49;39;79;119;401;903;493;3779;7389;29425;28091];
[5134;1;3;1;3;23;57;59;213;463;839;1201;1951;5197;13035;29657;35517];
[5152;1;3;7;7;3;49;29;181;367;101;1277;3329;3563;10373;29757;62555];
[5176;1;3;1;7;31;31;117;213;373;57;1095;2733;3431;3915;7665;44459];
[5181;1;1;7;5;9;25;47;117;355;495;1367;2579;5617;787;27655;18885];
[5204;1;1;1;3;9;39;113;87;107;477;891;2273;4239;7521;147;1737];
[5218;1;1;1;3;13;61;81;225;113;441;889;1915;3897;15179;4053;5925];
[5242;1;1;5;3;15;47;59;187;475;197;1381;33;4605;1487;14359;33769];
[5253;1;3;7;15;23;45;53;215;129;465;795;53;7077;9517;2663;55397];
[5260;1;1;7;13;25;49;105;255;245;153;1093;2123;2823;5125;17483;49003];
[5281;1;1;1;13;31;5;7;243;255;231;1663;1007;7573;405;29183;11367];
[5282;1;1;5;13;15;15;115;91;63;1013;1713;1945;6397;14213;24417;40807];
[5313;1;1;5;3;19;49;91;25;43;601;25;2405;1973;629;497;12625];
[5316;1;1;3;5;13;45;11;81;251;545;1155;1409;7187;847;2835;32909];
[5326;1;3;1;13;27;57;1;103;465;809;1727;3721;3347;3791;17247;8377];
[5340;1;3;3;15;25;31;91;91;119;205;1431;703;5327;7323;30415;61955];
[5347;1;3;5;11;19;39;79;243;109;463;1869;2133;4139;10461;14793;24025];
[5354;1;3;5;7;23;41;5;7;249;3;1743;489;4921;397;30955;22207];
[5368;1;3;5;15;3;7;115;19;217;231;1183;3723;5055;12967;7855;5067];
[5394;1;3;3;3;11;31;113;41;429;797;557;1199;1819;1933;9917;32229];
[5396;1;1;5;3;13;63;31;183;465;915;723;3227;4125;2813;26313;34287];
[5400;1;1;7;5;31;55;117;243;37;885;85;1067;3895;15655;28527;32109];
[5405;1;3;7;15;17;43;43;173;119;187;1161;599;4595;1681;11981;681];
[5439;1;1;7;7;29;47;25;93;411;103;783;1029;1927;3569;27647;8281];
[5442;1;3;3;9;19;57;31;183;141;889;157;2267;5701;6273;25739;34039];
[5459;1;3;5;1;29;35;105;165;505;299;1149;2397;2013;11591;15917;4791];
[5478;1;3;3;9;7;35;47;77;69;335;585;1131;531;8597;307;55985];
[5484;1;3;7;1;29;9;25;155;149;845;567;3735;3501;9365;12025;19131];
[5508;1;3;5;3;11;31;25;9;411;519;1611;1441;1487;10049;14373;24605];
[5523;1;3;3;5;3;7;101;107;339;155;1843;2529;443;8177;28655;8151];
[5545;1;1;7;5;29;37;73;131;125;451;947;797;5053;10155;30801;27235];
[5565;1;1;7;13;19;47;101;45;495;457;1293;1971;5495;12737;17687;26123];
[5566;1;1;7;7;11;11;75;177;251;553;1883;3379;1429;12227;10301;16467];
[5580;1;3;3;9;3;61;95;35;97;551;233;2045;4873;9109;10019;64523];
[5608;1;3;1;5;11;3;15;177;301;573;2029;191;5551;12083;27287;57235];
[5613;1;3;5;1;21;9;121;169;347;187;57;3163;5609;1921;17581;28351];
[5647;1;3;3;1;31;51;15;45;429;245;573;1595;5343;7519;17009;1299];
[5661;1;1;7;3;13;47;109;65;389;867;963;145;1089;9749;19625;43121];
[5671;1;3;1;7;21;61;77;67;143;579;625;2007;6343;4259;21233;237];
[5678;1;3;5;9;27;15;107;91;399;895;645;2301;439;6789;18299;47285];
[5680;1;3;3;5;13;11;43;199;505;409;25;2057;479;6031;9561;51613];
[5685;1;1;7;13;15;55;105;53;171;925;1849;2881;6951;13069;865;41019];
[5689;1;3;1;9;17;31;45;23;411;185;189;2123;2583;12713;12681;2231];
[5692;1;3;7;9;3;63;11;253;177;127;545;3293;4449;15995;10223;33529];
[5724;1;1;5;11;13;7;53;161;421;551;697;627;3879;1639;24419;3337];
[5745;1;1;7;7;27;7;37;205;429;407;1133;3563;2921;6173;11173;3009];
[5755;1;3;3;15;31;39;117;81;337;729;567;2299;1481;3189;1795;40299];
[5757;1;3;5;15;15;47;91;127;275;55;951;3423;2879;6115;1549;2287];
[5786;1;3;3;11;17;3;127;207;141;889;185;1095;4567;1371;30545;54445];
[5792;1;1;7;3;25;11;11;139;43;1;1977;397;5775;6913;13249;46767];
[5810;1;1;7;7;27;13;31;251;191;1015;161;3719;5321;13013;25187;51881];
[5824;1;1;1;1;3;3;13;19;423;349;1955;2103;6395;3315;23809;25925];
[5869;1;3;5;13;3;59;41;167;423;93;1299;2623;5829;8537;8701;43757];
[5872;1;3;5;11;9;19;127;119;329;819;7;3809;5305;3643;27369;61827];
[5895;1;3;1;15;25;43;55;159;205;911;983;2825;3751;7845;12023;18431];
[5923;1;3;3;13;11;1;65;133;479;181;679;981;3317;6241;11693;9619];
[5925;1;3;3;3;21;25;117;183;127;73;703;1469;257;11229;10167;50847];
[5926;1;1;5;13;5;5;113;15;231;269;989;465;3267;15239;29503;42855];
[5944;1;3;3;15;9;63;79;27;21;709;1969;3761;1015;13619;4205;40591];
[5986;1;1;7;11;29;3;5;45;107;131;1287;3551;849;2003;27451;47103];
[6012;1;3;5;11;3;47;59;53;369;249;915;2475;7539;763;7063;63971];
[6015;1;1;5;1;7;53;45;127;321;341;635;2277;1383;10951;29055;45087];
[6046;1;3;7;3;5;1;119;79;487;93;25;491;4085;6403;27779;8753];
[6049;1;1;1;3;9;59;49;141;323;703;1175;423;4323;10083;4289;28931];
[6061;1;3;3;15;31;31;73;15;187;653;91;1707;1431;9861;19071;8137];
[6067;1;1;1;5;27;63;93;1;329;353;863;473;7681;10653;15819;8495];
[6099;1;1;1;5;25;57;119;167;219;319;231;1065;6217;5131;1513;49281];
[6121;1;3;7;3;17;3;113;91;201;179;1907;3423;821;12927;24827;49403];
[6155;1;1;5;7;19;63;75;151;387;489;777;2049;1151;1351;25687;4143];
[6163;1;3;5;7;9;37;9;3;87;385;1667;2139;7527;16133;30023;28783];
[6203;1;1;5;9;11;55;95;73;413;867;589;2901;3021;413;5955;38921];
[6208;1;3;5;15;1;17;17;7;485;323;519;2325;2255;4211;20661;28931];
[6231;1;1;5;13;21;19;85;189;167;645;1475;3095;7123;3351;7961;20967];
[6241;1;1;7;13;3;47;13;213;237;291;285;1465;1765;12361;32651;54205];
[6254;1;3;7;13;13;27;71;35;67;117;647;2359;3295;8445;24761;29379];
[6262;1;1;1;3;3;19;23;37;5;1019;5;1605;2291;14015;9311;39751];
[6266;1;3;3;3;31;1;65;159;221;675;1061;971;2333;8265;14361;3263];
[6275;1;1;3;7;3;5;81;17;101;991;753;2883;4977;4409;1757;26803];
[6278;1;1;5;9;13;25;45;43;199;967;829;713;4547;7223;6497;53895];
[6292;1;1;7;5;23;15;89;179;509;147;315;133;111;15577;23427;5229];
[6329;1;3;3;7;27;7;113;65;315;135;1309;1179;5755;7513;6815;5137];
[6355;1;1;3;7;1;13;29;155;477;721;71;865;3897;3331;30641;65471];
[6357;1;1;7;3;29;45;83;3;461;109;1545;1365;6633;16137;23859;5995];
[6374;1;3;1;1;3;33;77;83;459;187;879;3731;6939;6707;23409;24245];
[6380;1;3;5;5;13;43;127;41;29;735;1391;2947;4873;4627;15;41719];
[6423;1;3;1;3;17;17;51;93;189;227;449;2809;825;2009;9563;41435];
[6427;1;3;3;11;25;47;113;173;141;919;677;117;5293;815;23749;19789];
[6430;1;1;1;13;15;61;121;223;53;389;489;1527;4771;8975;8005;14275];
[6436;1;1;3;15;31;57;111;145;279;991;489;3239;7647;473;31279;33447];
[6443;1;1;7;5;31;13;75;185;395;611;609;159;7931;9887;4115;53121];
[6445;1;3;5;5;13;39;103;237;77;913;511;1583;6763;14523;4247;63403];
[6458;1;1;1;15;11;5;43;43;297;827;747;5;3785;15021;11291;36743];
[6478;1;1;7;9;9;53;113;95;403;53;1335;4033;8147;11963;6523;23675];
[6490;1;1;5;9;27;29;69;79;327;409;1147;1579;2625;12227;30933;9057];
[6508;1;1;1;7;1;33;29;173;5;517;437;2035;57;12825;22095;65519];
[6519;1;1;3;7;27;29;53;79;429;707;589;2605;339;7039;19319;17649];
[6520;1;3;3;11;9;57;43;117;39;193;1427;2553;6877;7653;29041;44865];
[6530;1;3;3;7;23;45;29;151;265;739;365;3565;6447;9761;24021;679];
[6541;1;3;5;1;1;43;73;55;131;175;959;659;7315;15145;18301;14865];
[6556;1;1;3;5;15;15;91;113;359;241;1627;1069;1761;211;32671;58833];
[6607;1;3;3;7;29;27;79;53;409;81;693;3137;7385;11007;28459;28621];
[6612;1;1;7;5;29;7;67;195;77;773;1361;2153;4459;7301;5129;17797];
[6626;1;3;3;7;25;27;91;223;115;91;1645;2167;1955;9601;22127;13055];
[6632;1;3;7;3;27;53;67;249;51;151;663;3231;895;6777;3037;56755];
[6649;1;1;5;1;25;63;71;179;375;301;1127;2125;783;14481;7293;47883];
[6666;1;1;3;9;25;3;39;69;1;85;1271;1571;1953;5077;20369;44827];
[6674;1;3;1;13;11;61;77;59;127;475;1609;3553;2553;15589;9351;59787];
[6733;1;3;1;5;21;7;61;27;199;653;1243;2481;5369;12903;30229;39453];
[6782;1;3;7;3;13;15;107;153;501;573;863;3179;6019;15177;16075;43767];
[6786;1;1;7;1;23;55;17;35;5;137;1707;1377;6857;15361;27299;61871];
[6798;1;3;5;7;27;17;87;213;95;125;1239;3923;4193;11049;12783;45017];
[6821;1;1;5;15;9;55;11;217;7;249;369;205;4251;13785;24781;48929];
[6840;1;3;7;1;15;35;33;107;503;563;1591;3487;7495;1767;24791;31281];
[6846;1;3;1;11;3;15;47;193;289;253;909;1105;5119;1415;7737;4341];
[6865;1;1;1;3;23;33;53;187;469;573;835;2049;791;1177;31051;30955];
[6884;1;3;3;11;15;51;77;143;369;991;1103;1293;6019;6361;26301;20741];
[6891;1;1;1;5;17;19;85;135;113;593;579;1063;7173;2491;9355;19223];
[6925;1;1;5;15;25;51;107;193;31;1;1693;125;6223;14619;22683;26321];
[6938;1;1;7;1;17;45;87;39;87;499;1185;2763;3989;2863;24555;33817];
[6967;1;3;1;11;31;5;121;231;185;793;255;2785;5261;3687;21711;3941];
[6988;1;3;7;15;5;59;73;227;365;937;893;2155;4385;14345;6813;28461];
[6996;1;1;5;7;7;23;7;239;431;45;1015;1663;1893;5035;24075;2119];
[7009;1;3;5;1;3;15;63;103;119;801;1681;3463;6083;6453;11379;8205];
[7016;1;3;7;9;21;61;9;9;433;541;603;3905;3787;10187;3643;21319];
[7030;1;3;5;3;11;1;101;243;363;559;561;1163;455;4657;1147;39961];
[7043;1;3;5;13;17;37;57;47;483;571;1579;1137;8125;12271;23279;1615];
[7045;1;3;5;1;21;5;13;155;75;705;389;2855;6345;2279;12627;49451];
[7052;1;1;3;9;15;51;73;99;445;227;1705;2175;8111;9381;31555;48491];
[7073;1;3;3;5;9;63;107;51;461;979;1033;421;4807;11707;13261;26015];
[7142;1;1;5;3;13;53;117;249;57;851;1391;3245;35;16043;24399;63667];
[7153;1;3;1;11;23;33;57;125;385;495;871;199;4269;2269;22897;23597];
[7168;1;3;5;15;29;11;77;21;479;369;723;3721;1121;9463;19775;54525];
[7174;1;3;5;7;7;45;29;153;395;223;1917;3713;5087;10827;1383;36823];
[7183;1;3;1;3;31;19;111;55;275;923;917;2925;673;6579;18783;5137];
[7195;1;3;1;15;25;31;59;255;31;697;1751;381;299;295;14037;40953];
[7204;1;3;1;7;15;23;69;219;351;183;1083;2227;6249;9385;13167;2901];
[7214;1;3;7;1;5;61;117;13;67;521;41;2929;3937;1215;25593;32627];
[7222;1;3;5;1;9;47;63;39;371;657;491;2243;4049;10517;12409;40597];
[7267;1;3;7;15;17;3;77;13;275;225;487;2055;1293;15927;31773;18275];
[7269;1;1;5;13;11;57;113;27;191;363;1341;3487;8031;13801;7563;40675];
[7279;1;1;3;3;27;31;103;143;271;305;2033;3623;4219;9307;7501;8959];
[7293;1;1;1;13;1;3;27;97;475;143;333;2997;1807;4231;27437;59717];
[7312;1;3;7;5;5;3;69;233;309;511;1429;1887;2745;4969;17595;5451];
[7327;1;1;7;3;23;17;115;89;265;467;257;2027;5331;1195;4451;8621];
[7334;1;1;7;13;29;35;117;155;99;327;853;3595;2997;10745;21619;26549];
[7337;1;3;3;13;1;13;75;151;67;271;1609;1117;4293;4645;12005;55983];
[7343;1;1;1;13;1;61;101;63;161;261;1759;567;665;2339;9157;55603];
[7346;1;1;7;11;25;19;71;27;255;435;227;4087;4309;14903;14513;30207];
[7372;1;3;3;3;11;41;1;67;383;403;45;1521;1535;3353;27361;7549];
[7387;1;1;1;1;13;51;31;137;147;907;19;3639;3739;877;15005;60357];
[7390;1;1;3;11;11;23;29;173;105;873;1727;2761;2015;7491;17491;41065];
[7396;1;1;5;3;31;1;119;53;11;731;393;4031;4421;15715;6431;18089];
[7423;1;1;3;5;15;37;55;147;307;521;711;3085;5989;8081;23351;35259];
[7428;1;3;5;13;21;19;47;107;447;713;1655;2809;4741;2105;9255;103];
[7437;1;3;1;3;17;47;63;125;343;763;1777;607;5625;9517;7221;27257];
[7466;1;1;7;5;31;13;67;255;41;947;99;721;7367;11427;1357;12383];
[7474;1;1;7;3;23;27;73;185;189;545;1877;3169;5419;15873;29059;23983];
[7476;1;1;3;1;5;13;81;45;79;717;819;3539;7561;7319;5113;27273];
[7483;1;3;7;9;21;25;71;247;41;583;771;3745;1883;5717;755;14549];
[7518;1;1;3;7;23;25;87;143;499;515;1753;1229;173;10629;30579;29643];
[7527;1;3;1;13;29;33;31;69;503;117;1717;101;7647;1567;28677;3079];
[7545;1;3;1;15;29;45;57;81;171;813;505;3647;3913;5557;2477;42429];
[7572;1;1;5;13;21;13;81;5;471;221;1563;1741;7269;16327;22687;5291];
[7586;1;3;5;3;23;41;107;61;95;79;467;1533;739;6791;26911;20309];
[7597;1;3;7;7;3;53;71;163;459;975;687;1115;5241;299;26361;38583];
[7630;1;3;1;9;3;63;7;133;421;325;823;1175;6201;5707;31539;34645];
[7653;1;3;7;5;27;27;107;239;247;257;1367;3685;7839;11693;3237;13085];
[7657;1;1;1;3;27;41;51;69;271;809;1453;519;1301;2367;637;5267];
[7671;1;3;7;13;19;17;3;69;369;447;1685;4075;6143;11387;5411;29825];
[7672;1;1;3;1;25;61;79;163;1;905;1969;2735;7709;16121;20441;4543];
[7715;1;3;7;5;15;29;7;245;343;803;1719;3993;983;2925;10393;6053];
[7717;1;3;1;7;17;55;63;29;441;387;885;3269;1977;1927;3657;47043];
[7732;1;1;3;1;17;59;51;9;173;327;1185;3241;3785;10907;19429;22209];
[7735;1;1;3;13;21;57;125;5;359;437;1231;2441;5813;9991;283;52555];
[7753;1;3;1;7;15;19;39;125;405;381;1757;4075;5565;2065;295;8867];
[7811;1;3;3;11;7;33;95;19;253;141;1093;1787;7495;5229;15923;44157];
[7817;1;3;7;15;1;49;69;163;85;345;901;2329;8003;9915;2209;33979];
[7825;1;1;1;9;23;51;125;163;257;681;565;945;6375;8679;5985;28919];
[7832;1;3;5;7;11;23;123;231;377;121;1519;2061;2957;14537;17625;37773];
[7838;1;3;5;1;17;43;89;119;455;279;1857;3405;5225;13035;6055;30861];
[7841;1;3;7;15;31;63;25;225;3;527;355;1435;5763;15203;26579;45659];
[7844;1;1;1;3;27;43;71;193;135;5;683;925;7023;7711;2807;56003];
[7859;1;1;1;11;3;3;109;29;109;683;419;3295;1961;5953;8887;1523];
[7861;1;3;3;11;17;39;19;225;103;249;81;3875;4515;3969;24745;60031];
[7873;1;1;3;3;3;23;15;149;305;399;1347;1001;597;10003;22123;29919];
[7880;1;3;5;1;23;35;123;7;283;283;759;3061;2011;7771;32201;40667];
[7897;1;3;7;15;23;5;81;51;357;79;133;285;425;7743;13499;18983];
[7904;1;3;3;5;17;37;75;221;473;111;335;683;7353;2283;13457;61171];
[7910;1;3;1;7;13;45;13;223;149;209;727;3553;2573;177;855;44139];
[7960;1;1;3;15;23;5;103;139;17;29;1961;3021;5745;12963;30669;44171];
[7969;1;3;1;1;3;33;67;203;29;785;71;1693;4487;10221;24523;51223];
[7970;1;1;5;7;7;27;17;183;229;669;1675;3751;3233;10677;7509;52313];
[7976;1;1;5;5;25;35;21;163;483;399;195;3465;6349;545;18861;31759];
[7979;1;3;1;5;15;39;13;157;71;841;447;3625;53;12745;2719;27617];
[8007;1;1;5;5;3;45;113;121;263;887;709;2189;3811;1409;10451;48777];
[8041;1;1;5;15;9;41;31;95;377;215;437;3633;433;11935;15283;55451];
[8047;1;1;7;7;13;23;79;3;451;409;1103;1771;553;3175;28703;49357];
[8052;1;3;1;1;13;33;95;133;419;851;955;3985;5869;14219;253;46883];
[8061;1;3;3;3;23;55;91;207;281;355;361;261;6837;4401;25455;25313];
[8078;1;3;5;9;27;9;107;51;69;555;835;3541;1827;5737;31225;55619];
[8128;1;1;1;11;27;51;79;85;447;447;9;2803;377;4347;2183;61257];
[8146;1;1;1;3;23;21;51;217;297;135;573;689;4947;14143;26247;43061];
[8162;1;3;1;7;15;13;27;151;463;707;43;3641;4999;3783;9083;22085];
[8250;1;3;3;5;3;1;15;119;343;605;105;2939;2259;889;21759;34073];
[8270;1;1;1;7;3;63;103;1;235;317;263;2701;7331;15921;17295;613];
[8294;1;1;7;3;19;3;5;17;105;491;755;233;5397;12365;16325;59377];
[8324;1;3;3;15;15;27;37;151;481;949;1473;233;1925;15471;24957;3241];
[8351;1;1;7;5;9;61;49;91;169;179;701;3957;473;15087;6109;25083];
[8357;1;3;3;11;27;43;5;33;69;705;733;2675;2677;4235;11109;15557];
[8361;1;3;1;3;17;19;101;119;289;341;1395;563;6859;10359;10077;26905];
[8364;1;1;1;15;21;47;41;145;439;583;1755;1977;5235;15961;21315;60577];
[8393;1;1;5;3;9;59;71;143;27;1007;313;1567;1685;11063;28889;44253];
[8396;1;1;5;5;29;29;43;127;13;585;1245;187;2697;8791;19561;6463];
[8407;1;1;3;11;29;39;127;75;23;521;421;3115;139;5429;23341;58035];
[8413;1;1;3;1;27;35;27;9;185;653;887;2715;3775;1753;22105;62095];
[8414;1;1;5;5;5;63;23;31;317;1001;1751;1185;7933;525;30501;15565];
[8432;1;1;1;5;9;27;79;91;453;995;1041;3213;8027;5855;7435;64079];
[8435;1;1;3;11;1;51;27;195;139;41;1891;1437;1033;11671;3235;35083];
[8441;1;3;1;3;11;25;33;249;373;497;1631;293;3657;10741;15831;59545];
[8447;1;1;1;1;15;63;13;165;113;559;1615;3579;1993;1907;22335;47791];
[8449;1;1;3;15;13;49;63;235;31;811;1729;221;5143;11547;30029;52003];
[8456;1;1;5;13;29;61;25;221;421;221;583;373;2341;7493;13981;54141];
[8485;1;1;5;11;21;49;71;249;237;369;1273;1067;4411;409;7219;52933];
[8504;1;3;1;1;13;23;53;15;137;553;401;2247;5591;14021;445;20433];
[8512;1;1;7;7;7;23;19;189;119;643;847;2123;5343;11839;4575;60461];
[8532;1;1;5;5;11;19;111;219;185;499;595;723;3519;10891;27603;29261];
[8551;1;3;3;1;9;13;95;227;459;133;1535;3481;7187;14797;16511;6737];
[8560;1;1;7;7;19;57;117;7;455;941;455;797;6313;10071;18651;25013];
[8566;1;3;7;3;25;25;79;19;383;971;1625;2803;2461;633;32317;48407];
[8581;1;1;7;7;25;43;93;135;155;685;2001;3007;7315;15555;30401;36291];
[8609;1;1;1;5;13;33;123;221;341;105;1075;3125;5323;14293;29875;52215];
[8639;1;1;3;9;29;51;25;59;171;563;1695;2845;6067;10671;2909;33977];
[8641;1;3;3;7;25;21;39;65;485;949;1773;2775;6019;14587;6715;54793];
[8671;1;1;7;11;17;57;125;17;111;167;289;3939;7357;2289;1717;45225];
[8695;1;1;7;7;21;55;3;139;471;747;1437;1353;7657;13133;14193;38191];
[8701;1;3;5;7;25;57;55;17;315;159;437;933;7493;6025;2775;24287];
[8711;1;1;7;1;15;45;67;191;355;681;1763;1237;105;1425;26089;42879];
[8739;1;1;5;13;13;53;25;127;103;155;935;2561;475;4341;30541;43835];
[8763;1;1;5;15;27;59;99;173;189;41;105;3287;4071;15005;18301;34487];
[8778;1;1;5;11;21;9;57;115;495;561;579;397;3049;2007;5041;37345];
[8783;1;1;5;11;15;11;101;241;69;483;1007;4069;5221;5323;20177;24397];
[8785;1;1;1;7;29;15;119;161;21;517;847;2217;4487;4817;24053;21683];
[8797;1;3;1;3;3;51;85;63;345;799;1699;3961;7109;3931;28173;46851];
[8802;1;1;5;7;15;25;97;139;331;969;1129;2451;3107;12235;12949;29837];
[8816;1;3;7;1;19;21;51;155;295;565;29;2107;341;14611;15281;50727];
[8828;1;3;1;11;3;37;13;217;429;217;301;1217;5655;13845;32465;23559];
[8837;1;3;3;9;9;57;79;231;433;703;699;3813;7035;5885;19185;52551];
[8852;1;1;1;5;19;17;31;209;49;515;279;909;5881;2673;23635;23101];
[8859;1;1;5;7;3;3;119;139;245;775;1009;1157;1405;9737;17671;62981];
[8889;1;3;7;11;17;21;105;21;67;871;233;3607;571;9141;9751;28093];
[8900;1;1;3;13;5;53;91;181;143;375;1113;705;837;10505;11459;57753];
[8903;1;3;5;11;9;19;107;229;305;107;1027;691;4677;8987;7931;951];
[8909;1;1;7;9;9;17;39;195;103;315;517;123;7167;7039;3571;40469];
[8910;1;1;1;5;1;21;121;53;427;111;717;1065;2843;5873;28411;42443];
[8922;1;1;3;11;27;7;37;255;429;363;997;2429;6871;1271;29375;62897];
[8924;1;3;3;13;23;23;123;119;213;51;771;1603;1621;1497;23667;13443];
[8955;1;1;3;13;17;21;81;17;211;815;1751;3875;4001;3927;6185;28753];
[8958;1;3;1;5;13;41;23;187;475;353;1307;543;5077;3459;20553;29119];
[8980;1;1;1;7;1;39;3;247;375;101;81;1515;1079;15307;18865;63115];
[8994;1;1;5;9;23;7;61;45;379;553;435;1805;4147;2289;22081;40041];
[9006;1;1;7;3;17;13;107;169;119;981;1825;3329;7779;12245;28367;6749];
[9017;1;3;3;13;29;13;93;155;331;507;1073;279;6615;14077;3005;10171];
[9032;1;1;5;7;29;23;81;181;321;921;1531;2607;7291;1255;29889;30095];
[9040;1;1;1;5;7;1;9;231;203;559;243;3999;3649;7939;14729;34771];
[9061;1;3;7;3;17;29;79;251;305;641;1125;1155;7139;6721;43;34927];
[9066;1;1;5;13;21;39;55;103;143;487;849;1111;1105;8483;5417;10521];
[9071;1;1;5;5;19;5;111;49;95;917;843;2539;6831;9019;16045;59363];
[9076;1;3;3;11;7;45;87;51;49;615;603;1623;5351;11939;21945;40539];
[9086;1;1;5;9;9;33;113;37;163;853;1313;4021;965;11465;8573;24425];
[9104;1;3;3;9;17;19;121;95;93;441;1951;3335;6279;16087;14763;60771];
[9150;1;3;3;9;13;15;19;129;257;641;533;1667;5959;2259;10439;29745];
[9161;1;1;7;7;11;31;45;247;233;101;899;2033;7803;11423;30645;7723];
[9164;1;3;5;11;23;3;69;79;319;125;1463;2047;7311;5819;445;13725];
[9185;1;1;1;3;7;43;83;89;467;709;1993;3773;7805;305;15701;51101];
[9188;1;1;7;5;19;53;77;237;27;853;1003;2041;5739;4663;9783;23761];
[9212;1;1;3;7;19;31;71;33;479;693;1503;9;2779;1481;9413;36227];
[9230;1;3;1;11;9;23;1;99;247;33;1987;1577;8029;7785;29947;38751];
[9242;1;1;1;3;15;57;23;53;431;553;1433;2447;1871;10701;30961;12281];
[9247;1;3;5;9;11;49;123;91;87;155;301;3339;6183;15895;17309;45927];
[9260;1;1;1;9;9;41;79;123;261;547;1931;2553;7405;14431;24079;20769];
[9280;1;3;1;3;31;17;17;137;419;591;1693;3977;861;16025;189;60995];
[9300;1;3;7;11;19;47;107;243;87;135;507;189;1397;3841;22999;50781];
[9313;1;3;5;5;15;11;19;239;133;295;673;2389;4753;4363;21669;25579];
[9325;1;3;5;7;19;43;55;129;239;89;1731;1381;5483;11773;9201;17745];
[9343;1;3;1;13;3;15;77;131;417;845;1953;2871;1789;10343;11363;20699];
[9349;1;3;7;1;9;43;55;223;239;317;1951;2725;209;3853;2201;6839];
[9354;1;3;1;3;7;35;29;21;149;779;467;65;811;4859;14021;38429];
[9367;1;3;7;1;19;31;97;9;11;415;689;1513;2475;5039;5669;65103];
[9368;1;3;3;3;11;25;37;247;189;911;429;2395;3653;79;28115;23513];
[9455;1;1;5;5;5;27;25;45;291;455;741;2259;8131;11779;14693;58729];
[9458;1;3;3;7;21;33;67;49;153;491;1811;1955;925;15555;13801;48717];
[9469;1;3;1;3;11;53;105;129;457;225;497;1123;973;2901;26655;3643];
[9481;1;1;7;13;29;49;71;37;321;865;735;357;7629;6011;28221;39041];
[9482;1;3;5;3;19;59;65;199;69;391;1735;3075;287;16213;3211;22425];
[9495;1;1;1;5;15;61;67;255;5;689;759;155;7245;5881;21685;3863];
[9526;1;1;3;11;23;63;69;241;359;735;371;603;2707;15833;31795;14901];
[9530;1;1;1;7;19;33;83;19;13;667;317;3891;5497;8213;4913;22387];
[9558;1;3;5;9;13;21;11;187;249;647;349;605;2199;5033;29773;48953];
[9562;1;3;3;11;3;3;93;235;441;933;383;2007;4015;4175;3937;20623];
[9573;1;3;7;13;3;61;87;219;263;651;1343;2709;31;16249;4749;28909];
[9583;1;3;1;1;17;19;101;107;499;127;13;2123;5597;3751;14527;12009];
[9595;1;3;5;13;27;57;1;195;107;947;1475;2831;6449;16117;20555;61513];
[9597;1;3;1;9;9;47;89;187;401;299;637;197;1235;12655;25025;24443];
[9616;1;1;3;5;9;57;33;41;451;983;391;2707;705;13913;28843;34091];
[9638;1;3;5;3;29;19;61;31;349;253;1267;3345;2151;11309;19623;62407];
[9649;1;1;1;3;11;37;31;59;1;253;103;2811;1871;4239;26311;32507];
[9662;1;1;5;7;7;7;69;63;281;901;1785;2131;4265;253;13997;30177];
[9691;1;3;1;11;3;27;111;67;411;751;241;293;6271;4187;22119;63737];
[9700;1;3;5;5;27;19;45;203;81;59;1839;935;4847;1869;12037;30971];
[9703;1;1;3;9;19;25;9;27;373;875;1735;689;2957;7873;29771;4093];
[9710;1;1;7;11;13;39;11;129;53;433;1731;899;5855;10221;24165;50205];
[9721;1;3;1;15;25;31;85;49;325;299;183;287;2425;15353;25999;59129];
[9724;1;1;5;5;17;25;23;5;287;677;591;981;429;15297;14573;61095];
[9727;1;1;5;15;5;15;67;195;209;341;1621;1379;3031;5469;31563;49291];
[9743;1;1;1;1;25;33;61;201;15;125;969;1965;2021;10253;23801;28165];
[9779;1;1;5;5;13;17;5;245;11;133;287;1929;4331;15919;29663;10243];
[9785;1;1;7;9;19;33;39;191;489;631;69;1883;2183;14993;32715;62217];
[9811;1;3;3;13;23;61;103;193;501;431;437;417;6557;11701;27577;42943];
[9820;1;3;3;9;9;27;69;247;469;841;733;813;2673;7145;5385;44917];
[9827;1;1;7;9;5;13;19;71;323;923;1885;3031;4507;13787;14149;1483];
[9851;1;3;1;5;1;15;89;229;301;733;1343;2415;6463;1875;9293;6037];
[9854;1;3;1;5;29;57;67;121;311;441;1079;1963;7137;6745;9893;22811];
[9863;1;1;7;7;25;13;27;61;331;361;481;3783;3061;7827;18885;27583];
[9884;1;3;1;5;17;47;19;83;309;65;1573;3437;5623;12691;21075;27789];
[9894;1;1;7;9;13;51;7;209;131;111;1143;53;7277;9297;20869;33121];
[9903;1;1;3;9;13;17;57;89;239;281;775;333;5631;2805;10195;9665];
[9908;1;1;3;7;19;39;71;79;63;551;103;3169;2761;13929;20751;18951];
[9912;1;1;7;11;5;23;7;249;447;483;433;3117;1421;14991;5397;19813];
[9925;1;3;1;13;3;9;109;241;181;33;853;3939;3751;2151;28375;64443];
[9926;1;1;7;7;3;33;65;211;251;631;1819;3913;3353;12975;19117;51515];
[9971;1;1;1;13;3;21;9;203;223;229;1399;117;6297;11535;16383;12541];
[9973;1;1;5;7;25;9;53;27;497;103;1915;2179;3679;11375;18907;63385];
[9977;1;3;1;5;1;53;91;169;87;387;377;1121;7241;5133;1949;13433];
[10021;1;1;1;3;27;35;61;189;241;445;287;325;127;2363;30663;43557];
[10039;1;3;1;3;17;47;59;237;213;979;807;85;4621;9915;13631;55657];
[10048;1;3;5;7;27;5;101;89;495;675;1181;2295;1913;3731;32639;58297];
[10051;1;3;3;11;5;41;49;229;93;659;927;3425;4083;11859;10603;20631];
[10065;1;3;5;11;31;51;67;69;253;497;1665;1985;5439;15999;4175;62175];
[10071;1;1;7;11;1;21;95;19;205;513;1329;1821;1251;2381;32623;23923];
[10072;1;1;5;13;3;1;29;175;315;865;599;1695;1391;2313;31035;19159];
[10101;1;3;3;1;3;45;109;93;481;285;869;3441;3715;1355;9581;50173];
[10106;1;3;7;7;15;35;107;107;315;213;281;2073;4689;5877;31;40967];
[10130;1;1;3;11;11;3;73;41;79;37;481;1993;931;7677;11321;45735];
[10136;1;1;7;1;15;21;65;237;263;849;863;4039;3171;13381;30373;51639];
[10148;1;1;1;3;21;57;113;3;487;41;1277;633;2839;4977;14537;31749];
[10155;1;1;5;1;1;55;71;181;147;895;1839;2157;3187;6403;30367;48915];
[10157;1;1;5;3;9;17;19;127;115;875;831;2439;7475;1921;18657;27709];
[10160;1;3;3;13;29;11;35;81;291;483;625;3957;6017;12543;18773;2471];
[10166;1;3;3;13;11;39;7;85;493;209;819;3277;4275;8997;22943;33199];
[10183;1;1;1;7;11;25;1;57;505;135;1713;3051;5893;10711;10681;12235];
[10192;1;3;5;11;23;33;13;107;289;251;235;1747;4097;12237;17559;5063];
[10225;1;3;3;9;19;17;23;45;297;147;1301;2057;7871;9971;1965;62449];
[10241;1;1;7;3;17;21;19;203;289;897;1967;3519;3261;8199;24181;23273];
[10247;1;1;7;11;1;17;25;63;509;969;47;1329;701;5227;419;14839];
[10284;1;3;5;11;1;41;81;157;395;97;1919;3043;6015;15;23733;55485];
[10304;1;1;3;11;17;37;17;181;179;297;1007;1559;6275;11645;7535;28941];
[10322;1;3;7;15;5;47;31;237;215;563;207;1867;6635;6857;11837;22865];
[10331;1;3;1;7;7;39;51;179;57;987;893;2715;1045;5799;19805;54275];
[10333;1;1;7;15;25;9;127;243;323;1013;929;2891;7549;1071;17663;15247];
[10340;1;1;1;5;25;23;101;9;371;89;1749;3559;8071;13887;14807;42825];
[10347;1;3;3;11;21;41;3;77;3;709;1745;3615;4141;5275;28329;59739];
[10357;1;1;7;13;1;11;73;183;363;241;863;3983;3235;293;649;441];
[10371;1;1;5;3;13;27;13;191;57;639;1803;2353;3143;12763;5771;36155];
[10386;1;1;5;3;1;53;85;45;283;823;1213;3261;4599;13267;4613;12657];
[10404;1;3;5;15;27;49;59;123;357;527;337;2751;3999;8525;12501;40621];
[10414;1;1;1;7;1;55;85;17;447;599;1315;2313;1649;907;25647;3251];
[10422;1;3;5;13;9;1;37;121;143;1;631;2273;1673;3649;27533;28731];
[10448;1;1;7;13;9;31;57;249;397;815;501;895;1217;11387;8635;65193];
[10451;1;1;5;5;9;35;95;193;133;513;1929;3841;3063;2383;24413;51185];
[10473;1;1;1;13;3;49;45;191;15;181;1819;3741;1227;12775;9461;44951];
[10479;1;1;1;1;3;45;121;19;269;829;517;3913;183;11019;24969;21973];
[10501;1;1;5;11;31;39;125;189;401;57;1557;1727;1415;4025;30353;36589];
[10530;1;1;3;9;3;55;125;187;409;499;1853;2781;4323;16159;16345;34659];
[10542;1;3;5;11;31;5;125;137;197;475;2003;617;1289;8365;28981;57537];
[10544;1;1;1;5;19;29;83;127;311;177;1635;2187;5377;12841;7591;6095];
[10571;1;3;5;5;21;39;65;197;115;411;1457;3011;7021;14119;61;21107];
[10628;1;3;3;9;19;57;99;23;451;507;973;415;7123;11367;29767;23763];
[10643;1;1;5;7;29;23;47;11;267;873;591;373;7097;3783;23289;5547];
[10673;1;1;5;15;7;7;7;91;389;841;1995;459;7013;3109;23615;21519];
[10683;1;3;1;1;13;25;87;235;193;201;713;1633;3117;13609;17211;573];
[10736;1;1;1;9;27;53;105;39;217;781;997;661;6243;6427;17739;62239];
[10795;1;1;7;3;3;49;75;125;239;195;215;2983;1185;4743;12069;55509];
[10797;1;1;5;15;31;11;9;91;253;361;571;1589;2425;4279;3765;46519];
[10815;1;1;3;3;21;49;49;213;399;253;1565;2447;453;7957;24799;58503];
[10817;1;1;7;1;5;59;81;97;209;477;17;3085;3655;599;24011;14981];
[10842;1;3;3;13;19;49;7;35;111;169;629;1587;5345;13699;21187;30199];
[10844;1;1;3;13;19;59;73;127;475;509;9;2661;711;15835;31429;33885];
[10863;1;3;5;3;31;15;43;185;29;897;1041;1057;6285;13925;4023;25741];
[10899;1;3;5;11;1;33;63;155;175;501;1147;3395;3285;16237;22315;50945];
[10902;1;3;3;3;5;13;77;227;85;139;139;1;7147;2023;32705;38753];
[10917;1;3;5;11;31;59;35;179;489;537;1537;2877;4937;10825;2445;34907];
[10953;1;3;7;11;17;17;95;223;165;925;829;3971;1;7393;8825;25705];
[10967;1;1;1;1;25;17;25;143;385;907;1381;1823;3819;8475;5321;12037];
[11002;1;1;5;11;7;47;97;85;105;23;263;1329;1905;12121;29635;41249];
[11024;1;1;7;11;1;51;13;13;5;143;83;3831;959;6083;16997;59887];
[11029;1;3;3;13;25;9;31;5;215;791;767;1733;2715;14283;25795;54249];
[11030;1;3;7;5;11;19;125;81;71;131;1869;1111;6763;5275;23095;1139];
[11043;1;3;3;9;25;43;119;49;133;217;521;1367;5867;6829;29871;60383];
[11087;1;1;7;9;5;11;59;157;279;301;481;3273;7943;3273;27783;17271];
[11106;1;3;3;13;11;57;13;5;435;169;541;517;2359;9121;27911;15679];
[11130;1;1;3;9;9;55;65;113;21;807;373;2825;1527;15565;8339;7227];
[11156;1;3;5;9;1;1;49;255;477;821;1647;713;6841;3187;22649;51469];
[11176;1;3;3;11;13;43;63;139;71;809;993;2429;833;6545;10987;39567];
[11221;1;1;1;9;19;23;47;199;191;827;391;837;1209;2493;24071;46589];
[11267;1;1;5;13;25;51;39;43;103;899;1729;2389;2965;189;3063;50609];
[11282;1;1;3;1;5;29;105;201;503;199;507;205;2389;695;15233;50353];
[11294;1;3;1;7;19;53;45;21;89;545;1885;765;6673;13485;9987;2609];
[11332;1;3;7;13;17;7;59;23;159;309;1407;2483;1807;15733;5603;52989];
[11353;1;1;1;11;13;19;123;185;413;745;361;2391;6697;2281;11999;13175];
[11369;1;3;5;5;11;49;123;173;325;667;895;1067;8121;10577;30561;17391];
[11372;1;1;5;5;23;21;77;223;281;161;141;345;3879;11393;26907;53805];
[11375;1;3;3;5;3;47;17;109;185;139;957;1417;4553;6101;29537;34821];
[11413;1;1;5;3;29;49;89;61;45;593;269;1483;2971;991;21239;29301];
[11429;1;1;3;13;29;45;33;253;291;783;737;2363;2651;8627;21785;58419];
[11430;1;3;7;15;29;15;81;185;363;681;1737;3789;4365;3295;23205;4457];
[11444;1;3;3;11;15;39;67;167;197;357;871;2201;5377;6299;20873;59283];
[11462;1;3;3;5;9;15;127;49;21;719;357;425;5507;9639;275;47503];
[11465;1;1;7;1;13;63;111;121;21;481;247;3147;5783;8947;20809;42039];
[11471;1;1;3;3;31;33;9;69;187;517;2029;2205;7661;4757;27525;9665];
[11473;1;1;1;13;7;41;103;161;233;221;693;213;4609;7771;28703;17407];
[11495;1;3;7;15;31;47;27;111;479;1003;1687;347;2179;11861;8169;31941];
[11499;1;1;3;5;5;63;25;125;199;147;589;3565;3449;8331;8923;31207];
[11519;1;1;3;11;19;25;77;99;299;19;1641;2193;4299;3635;20621;267];
[11562;1;3;7;11;9;59;7;167;1;775;29;1935;3723;11835;2887;65285];
[11576;1;1;7;13;5;47;101;155;235;93;465;3581;1837;7675;10789;45167];
[11582;1;1;3;5;9;59;121;109;59;821;1625;343;1591;3875;13729;56381];
[11596;1;1;1;9;27;53;93;215;133;561;39;2591;1041;11913;24493;37921];
[11602;1;1;1;7;23;7;81;107;219;943;563;1083;5803;5687;32559;62727];
[11611;1;3;7;7;21;53;3;5;231;601;1561;103;3837;2675;5263;23375];
[11627;1;1;3;13;15;27;89;7;251;887;951;3001;5687;4921;5091;59337];
[11682;1;3;7;15;25;53;19;155;185;503;547;1917;7633;15167;14177;46761];
[11687;1;3;5;15;21;49;13;163;471;281;1141;3013;6847;9261;15955;9397];
[11691;1;3;3;3;1;21;19;239;479;609;65;2735;5337;6293;19351;34135];
[11733;1;1;7;1;9;1;119;23;411;535;101;1597;2379;2421;31471;36473];
[11747;1;3;1;11;31;63;17;225;45;409;59;3943;8043;11759;10667;58793];
[11759;1;1;3;3;9;49;61;239;245;765;1945;3567;5355;14799;7141;59511];
[11778;1;3;7;9;3;33;103;99;35;799;1347;2253;8189;14177;13479;13749];
[11852;1;3;1;15;15;51;7;179;471;265;1571;2983;701;15133;7885;29977];
[11857;1;1;5;9;15;37;49;213;113;729;1115;2727;2635;8433;11145;46779];
[11858;1;3;5;11;7;3;115;151;133;723;7;4063;5807;9845;25829;29315];
[11893;1;3;5;9;25;55;17;135;145;379;1603;3459;5773;6545;17509;25847];
[11907;1;1;7;11;1;61;113;147;489;775;1347;2199;299;9589;19931;1335];
[11928;1;3;1;3;1;7;27;243;355;425;1215;3723;3489;9285;12739;24797];
[11931;1;3;5;11;15;25;57;221;247;647;259;1665;7055;2835;16411;42999];
[11933;1;1;3;7;9;25;61;233;73;235;1539;1865;5671;1329;5767;43039];
[11967;1;1;7;9;21;11;123;7;41;407;1485;1723;585;10597;16215;63403];
[11976;1;1;5;7;27;9;123;101;273;673;1141;3841;4041;13169;8221;12915];
[11989;1;3;1;13;3;17;105;17;237;321;855;2821;2467;3503;15187;1689];
[12003;1;1;5;5;19;23;9;205;87;153;1543;1193;6619;6845;8459;37533];
[12024;1;1;7;15;13;29;79;9;203;211;239;2349;3447;7797;19311;58071];
[12030;1;3;5;11;5;49;71;151;333;895;1095;2471;2477;14493;16711;14393];
[12037;1;1;5;13;17;19;25;149;111;631;763;2535;3631;1809;8163;18037];
[12044;1;3;3;13;23;61;25;179;351;247;1021;2413;2585;3731;5435;52723];
[12052;1;1;5;11;1;39;65;59;21;927;1989;2823;4857;15521;30495;16067];
[12059;1;3;3;7;17;5;17;125;379;875;1565;2435;933;6809;20129;26339];
[12075;1;1;7;5;3;57;51;213;455;663;2007;3995;4889;9527;23507;3261];
[12083;1;3;7;5;1;29;85;151;165;123;1425;2851;4427;7683;21085;28925];
[12117;1;1;5;3;11;33;127;3;41;591;1539;3823;125;421;9051;55025];
[12138;1;3;1;5;7;9;69;35;59;477;1207;1245;6423;11329;26535;37621];
[12146;1;3;1;1;15;35;17;123;303;193;1489;2587;1883;4063;1921;60413];
[12202;1;1;5;1;7;61;39;247;139;1015;757;823;4757;9307;32287;37241];
[12230;1;1;7;15;3;5;85;93;457;999;1331;919;5271;11687;24233;38803];
[12254;1;3;3;9;5;43;37;13;505;603;1857;2675;2017;9481;10873;54755];
[12304;1;1;5;15;13;3;7;239;471;835;553;413;4029;8613;15533;58987];
[12316;1;3;1;5;19;27;21;43;57;755;1245;2805;3799;2013;21145;10317];
[12337;1;3;5;13;9;23;35;5;315;169;399;2641;1525;10561;11917;33009];
[12347;1;3;5;7;23;53;101;105;451;207;1271;3067;6725;15525;7951;1283];
[12367;1;1;5;5;27;21;77;143;213;443;149;2667;5269;10359;25287;5843];
[12398;1;3;5;5;25;27;109;157;459;767;765;2667;1833;3781;9077;64321];
[12421;1;3;3;13;31;25;97;237;279;431;1713;809;1989;10431;5867;42197];
[12428;1;3;7;3;9;5;5;191;73;521;787;903;3073;2067;24741;57029];
[12446;1;3;3;1;3;41;125;53;125;781;865;3677;6279;357;10667;1127];
[12449;1;1;5;11;25;19;99;121;359;73;607;2149;5739;15669;29457;57549];
[12467;1;1;5;3;23;5;35;55;369;239;329;3057;3757;12523;5017;52185];
[12479;1;3;3;13;17;61;69;165;267;323;2007;2025;4423;15975;31897;37013];
[12502;1;3;7;13;19;19;87;111;389;611;1523;963;4671;12569;21839;10919];
[12521;1;1;1;3;1;27;13;227;29;457;221;127;5335;16247;19559;19185];
[12553;1;3;5;7;29;21;23;157;197;87;1591;1829;407;15885;14933;1997];
[12568;1;1;1;9;3;35;43;187;195;325;197;2905;7323;1563;7659;45185];
[12573;1;1;1;15;3;23;105;33;73;495;1409;2583;1099;1041;28955;60293];
[12592;1;3;7;13;25;19;99;137;139;719;529;1147;5813;11551;30183;14593];
[12597;1;3;3;5;17;25;73;193;309;887;1655;1641;2091;12087;21881;1145];
[12601;1;3;1;1;27;41;13;151;83;645;327;1795;2717;12433;22751;9823];
[12615;1;1;3;7;1;43;77;229;59;499;1883;135;3461;9821;219;6111];
[12619;1;3;3;3;23;7;17;67;361;565;1621;3253;7973;281;3209;48215];
[12694;1;1;3;7;31;15;97;141;197;883;1689;269;7487;10403;18903;58147];
[12697;1;3;3;3;23;9;87;125;359;527;1251;637;1145;12721;14693;6021];
[12698;1;1;3;5;13;43;105;173;205;859;1237;1227;1409;15513;25317;30745];
[12713;1;3;3;15;31;43;125;149;145;109;975;1167;7629;8373;5923;64117];
[12722;1;3;1;15;3;33;89;173;379;615;1401;1567;4453;7461;32555;64369];
[12733;1;3;7;11;27;23;45;7;15;21;1663;3327;5611;8535;27669;25525];
[12736;1;1;3;15;15;61;127;145;151;41;629;767;5801;3395;1157;30033];
[12790;1;1;1;5;9;63;73;9;299;237;369;1295;4869;6821;19961;32129];
[12794;1;1;5;13;19;7;119;35;319;405;1255;1299;4311;14999;24567;4001];
[12803;1;1;1;13;9;39;13;207;355;691;37;3137;6073;16179;28661;41];
[12815;1;1;3;7;21;3;123;27;187;183;769;2367;2957;7065;17855;60805];
[12829;1;1;1;1;19;31;71;85;303;617;1007;283;8087;11079;11463;65295];
[12833;1;1;3;13;25;63;61;187;401;465;1485;801;3649;7763;8495;54479];
[12840;1;3;7;3;13;51;41;119;311;699;1113;3631;1981;3259;25871;45659];
[12875;1;3;7;13;31;27;57;181;325;107;1745;635;3941;3305;14563;29855];
[12877;1;3;7;15;5;55;5;147;365;485;1841;3673;6513;11121;5725;18027];
[12916;1;3;5;11;13;45;35;79;109;683;1171;3015;2163;4823;4365;42931];
[12923;1;1;7;7;13;45;57;39;297;985;1559;487;5071;2657;9401;41889];
[12935;1;1;5;9;29;33;79;237;509;537;549;3657;7141;15189;30853;36089];
[12949;1;3;5;7;31;15;75;73;237;273;865;743;2607;7611;18441;12703];
[12954;1;1;1;9;27;9;35;137;265;181;1341;1945;5615;161;18369;4791];
[12956;1;3;7;11;27;29;29;43;489;177;1489;2927;623;14571;22447;46905];
[12959;1;3;3;3;19;41;107;53;239;263;1433;1655;7991;7405;2735;25519];
[12978;1;3;5;7;19;37;73;243;215;445;1781;3223;187;8443;18185;45093];
[13001;1;1;3;13;9;57;111;111;221;505;1261;3045;1655;16247;21033;17993];
[13010;1;1;7;5;7;55;77;5;131;969;1481;2883;2645;3003;5601;37063];
[13043;1;1;5;15;29;55;39;197;349;29;341;67;1977;425;4063;42705];
[13049;1;1;7;13;1;57;81;81;129;681;1407;2465;3627;2325;31649;18449];
[13058;1;3;5;5;23;59;35;217;393;155;1315;105;2285;5167;27997;55193];
[13112;1;1;7;3;11;59;53;179;319;819;947;3881;765;4219;16405;48055];
[13140;1;1;3;9;23;9;67;67;137;523;1585;2441;167;5217;12031;14297];
[13149;1;1;5;13;31;63;121;91;439;917;203;1519;4363;2391;25755;26677];
[13163;1;1;3;5;25;31;11;95;339;817;35;3923;7365;10537;5521;54579];
[13187;1;3;7;1;3;33;47;13;139;445;1357;3907;7495;8789;26589;43479];
[13196;1;1;1;11;5;45;61;13;167;287;931;881;5713;12937;12951;21597];
[13237;1;3;5;1;29;23;7;117;503;897;733;1113;7205;11507;561;34011];
[13244;1;3;5;7;3;51;21;147;35;259;689;3801;2481;9673;4065;595];
[13264;1;3;3;9;9;29;5;191;393;979;1627;937;75;2339;24007;30555];
[13279;1;1;5;7;9;35;111;23;113;563;1689;1575;6127;9919;2555;52261];
[13292;1;3;1;5;31;21;117;159;473;279;1281;311;159;3343;27761;59989];
[13295;1;1;5;1;23;31;67;241;401;69;933;777;267;12411;23767;9047];
[13307;1;1;5;1;15;49;99;15;267;913;1581;3713;651;14275;10103;57619];
[13312;1;3;5;9;19;23;95;5;449;153;1195;1315;2347;12683;10865;50703];
[13317;1;1;1;13;17;17;115;31;135;725;795;1695;6199;4179;5223;48457];
[13327;1;3;5;15;31;15;3;247;385;269;1665;581;2809;6333;7459;14815];
[13348;1;3;7;5;15;35;117;85;11;621;1523;981;511;14113;4673;22683];
[13390;1;1;7;1;27;61;119;249;431;147;173;423;1353;4747;12761;32947];
[13413;1;3;7;1;23;39;15;153;219;359;1233;169;2817;11043;12435;30135];
[13417;1;1;5;1;1;55;39;1;151;865;125;2351;6315;1165;20163;43991];
[13418;1;1;3;9;25;41;115;221;129;265;1887;4057;7523;13591;5735;59645];
[13451;1;1;5;5;19;15;9;77;511;627;153;2015;247;15949;9715;45411];
[13475;1;1;7;7;17;17;107;183;39;647;1339;3915;4937;537;27011;58937];
[13482;1;3;3;13;3;3;69;201;431;65;683;121;7017;2791;16713;62555];
[13510;1;3;7;3;7;41;117;237;23;757;545;3899;1837;5555;7891;29151];
[13527;1;1;1;3;27;15;39;195;353;299;1431;2279;1795;13773;24915;49701];
[13543;1;1;5;5;7;7;125;5;401;523;1967;2471;7279;7559;12025;60599];
[13547;1;1;1;13;13;59;13;249;465;847;1483;975;7729;2773;15745;51237];
[13627;1;1;7;9;31;41;115;141;247;355;1109;3239;6495;4515;30145;47705];
[13650;1;1;3;13;29;41;69;179;45;271;1909;3095;7199;14049;9903;33383];
[13683;1;1;3;13;7;45;105;105;243;121;67;3169;237;137;4175;54325];
[13696;1;3;3;11;19;51;93;155;79;579;1621;1251;7639;15875;25815;56063];
[13702;1;3;3;9;27;27;77;45;217;965;1045;875;4515;11261;27859;757];
[13713;1;1;3;11;17;7;81;37;299;765;977;3371;3163;13267;18345;9239];
[13739;1;1;1;3;15;23;115;11;183;511;557;3253;153;8465;22659;42143];
[13749;1;1;5;13;17;61;127;219;225;981;615;731;4069;12637;11601;38257];
[13767;1;1;5;3;29;3;73;79;393;779;823;2473;3811;4417;9399;50011];
[13774;1;3;3;9;21;35;61;99;115;657;629;1129;2355;12665;459;40831];
[13781;1;3;1;7;25;61;53;249;15;649;665;595;1441;8035;5381;7147];
[13795;1;3;1;7;19;9;27;207;205;461;1069;4039;6549;2333;29;50067];
[13821;1;1;5;3;15;7;115;205;71;73;53;71;6049;15293;17041;20313];
[13825;1;1;7;7;9;7;119;99;357;729;2041;3355;5333;1263;30521;64867];
[13838;1;1;1;7;31;63;63;159;281;295;913;2161;8033;13789;17711;14915];
[13852;1;1;7;9;29;55;69;129;453;361;1883;17;1765;111;10311;55019];
[13879;1;1;5;9;21;15;31;57;291;915;945;1775;5905;9073;3271;15571];
[13888;1;1;1;7;21;11;1;9;167;143;1535;1267;6675;13037;19513;52027];
[13897;1;3;3;7;31;45;57;105;63;121;631;679;3873;16333;32069;64725];
[13906;1;1;1;9;23;41;29;207;489;319;905;3147;4195;2697;5281;1771];
[13939;1;1;1;9;25;33;57;201;405;111;407;3489;449;8601;1273;42105];
[13962;1;1;1;3;19;45;123;159;237;173;781;787;7537;15453;25567;53729];
[13981;1;1;7;3;29;9;89;207;345;685;1701;2859;8065;9289;2459;28367];
[13985;1;3;1;3;31;41;55;241;81;1001;595;1725;853;11427;20617;1717];
[14020;1;1;3;3;9;45;121;69;177;1017;211;2753;6923;1387;32063;45337];
[14030;1;1;5;15;21;23;95;61;485;403;619;3035;4881;13423;17815;35221];
[14041;1;1;3;3;3;59;23;69;77;309;227;2877;3739;3539;20083;23415];
[14047;1;3;7;3;17;43;95;239;223;353;1237;3239;1369;7245;32401;63889];
[14048;1;1;1;5;25;63;123;3;291;819;793;241;5619;8871;18341;2757];
[14066;1;3;7;15;3;21;17;97;395;333;909;3783;3635;751;24227;44281];
[14092;1;3;7;13;29;49;123;195;191;159;211;1887;3047;4871;2607;32425];
[14120;1;1;7;7;15;57;91;255;267;897;441;1581;953;6951;17275;50229];
[14126;1;3;7;15;1;35;91;219;7;117;119;2687;1215;9517;10849;28347];
[14131;1;1;1;1;21;55;67;221;503;883;1037;2965;1485;8557;28091;25459];
[14143;1;3;5;9;19;3;73;123;95;307;1339;3669;5077;12049;523;21457];
[14146;1;3;1;13;3;1;111;97;371;697;1989;3715;7875;6841;7009;17809];
[14152;1;1;1;9;25;21;19;43;329;531;491;1147;1469;12841;29651;29517];
[14155;1;1;5;1;15;63;101;197;477;245;341;61;3803;10001;5519;19083];
[14157;1;3;7;5;13;43;7;143;291;531;1727;871;7091;5737;24285;51017];
[14188;1;3;5;1;17;13;15;85;361;153;989;1367;4705;3599;4441;52471];
[14206;1;1;7;13;21;43;111;29;299;439;1929;283;5901;14113;3929;55843];
[14243;1;3;3;9;31;59;63;43;91;171;733;1359;425;8505;19777;54723];
[14278;1;1;5;7;31;1;97;253;331;307;1749;2115;2535;9945;11013;14231];
[14308;1;1;5;11;13;7;109;237;301;383;683;1603;6393;2437;12101;1767];
[14317;1;1;3;11;15;61;119;199;109;265;1431;1729;3409;10129;16945;34681];
[14335;1;3;7;9;13;59;121;73;29;513;279;457;7985;15199;10185;33621];
[14354;1;3;7;7;23;17;27;65;387;487;1803;2789;461;11201;7001;40229];
[14356;1;1;3;15;9;13;55;127;33;513;1055;643;505;3005;6121;64147];
[14379;1;3;5;15;5;11;77;233;175;691;171;2491;6915;14195;7845;36499];
[14381;1;1;5;11;19;45;103;207;99;645;1739;1517;5907;16035;14559;44007];
[14384;1;3;7;15;21;27;53;107;89;291;983;3527;1025;2985;13747;32715];
[14389;1;1;3;15;23;17;27;209;77;959;813;3597;5809;693;10325;16855];
[14390;1;1;7;11;23;53;123;99;211;935;1371;1657;4699;2683;27933;21451];
[14414;1;3;3;3;17;21;93;201;423;351;1639;227;5719;13111;5993;44615];
[14425;1;1;7;3;13;49;59;255;213;147;1441;3593;6419;15657;1947;62713];
[14462;1;3;1;7;7;41;79;135;275;585;925;3139;4351;1827;23533;63031];
[14472;1;1;7;3;11;1;13;149;29;897;1043;2393;3931;6741;19973;46303];
[14508;1;1;1;13;13;57;9;253;149;67;1531;4049;3013;13947;3371;35317];
[14511;1;3;1;1;15;19;11;125;179;383;1273;1551;6441;6579;19659;31005];
[14519;1;1;3;15;29;37;11;199;273;663;549;3167;2049;8815;30719;47905];
[14528;1;1;1;15;7;9;113;231;155;27;419;1303;4493;5633;5743;51335];
[14561;1;3;5;13;21;35;7;63;391;637;2011;841;5933;10563;7593;34767];
[14574;1;3;1;15;19;13;89;127;507;715;1305;2989;7551;1953;26101;54913];
[14588;1;1;5;1;1;33;101;211;173;761;177;2721;6949;15801;6639;21405];
[14594;1;3;1;13;15;23;113;177;43;743;57;3875;7833;13619;17637;5547];
[14606;1;1;3;13;21;7;123;83;391;731;597;2595;1949;14619;17141;60595];
[14614;1;3;7;13;31;55;15;43;17;855;233;1411;1063;12977;22159;59185];
[14639;1;3;7;7;17;53;67;37;245;941;1213;1965;6635;10189;12979;63503];
[14641;1;1;5;15;31;23;15;175;177;643;1705;3541;2009;12005;27281;16821];
[14648;1;3;1;13;27;37;1;171;255;445;171;3555;8169;399;20975;36195];
[14668;1;3;7;11;13;15;123;65;173;317;1991;2093;8073;12831;15455;30175];
[14673;1;3;1;7;5;53;59;219;407;501;875;2627;1335;14387;25523;28337];
[14679;1;3;3;13;13;41;93;125;41;461;887;1085;3393;11945;16329;43531];
[14695;1;3;1;11;21;39;1;185;429;285;443;1165;451;10903;31511;50555];
[14702;1;1;7;5;11;25;61;171;493;733;215;1871;7783;14113;2061;58961];
[14704;1;1;7;7;27;23;53;45;131;301;275;3855;4883;6303;25269;12697];
[14740;1;3;5;7;11;15;71;101;377;803;1369;3741;633;10571;30659;31101];
[14754;1;1;5;15;19;53;3;153;411;685;1405;109;5755;13311;3713;24579];
[14774;1;1;3;3;27;7;89;39;5;853;1757;2927;2889;9735;17959;39301];
[14792;1;3;1;3;13;41;57;71;187;285;825;1807;7261;2645;21861;1839];
[14797;1;3;3;5;15;21;23;7;341;981;891;721;7221;3137;28725;54993];
[14806;1;1;5;3;3;61;59;97;205;359;185;3361;7637;15473;6351;62097];
[14812;1;1;1;9;13;11;123;71;199;251;535;371;1605;12107;13833;2019];
[14856;1;1;7;13;27;1;43;73;409;601;1481;649;3293;12257;23377;17225];
[14876;1;1;7;11;15;55;99;45;261;461;1507;3575;4425;9895;20191;61863];
[14900;1;3;7;1;3;7;19;85;139;691;1685;137;7547;16143;14193;52479];
[14910;1;3;5;9;17;61;7;189;31;641;1381;3999;4909;8463;31761;54493];
[14912;1;1;5;15;17;15;69;111;55;1011;1859;2643;6043;5125;15875;611];
[14915;1;1;3;5;3;33;73;227;327;369;189;1841;5625;1179;18651;34951];
[14922;1;3;7;13;1;17;109;149;89;889;799;3423;2599;14525;12763;23855];
[14939;1;1;3;15;5;63;87;7;63;171;1215;557;3009;16305;23517;40101];
[14946;1;1;3;3;29;31;79;183;401;813;41;1111;5669;15697;7813;10215];
[14955;1;1;5;7;9;25;25;57;343;375;535;3405;1909;3201;2417;52285];
[14966;1;1;5;9;25;19;33;183;29;991;1045;2249;2933;12525;13943;10423];
[14976;1;3;1;7;3;45;49;37;429;67;821;1289;7311;16165;25861;57715];
[14986;1;1;7;3;19;3;33;153;505;683;611;1691;6421;15517;19161;49013];
[14993;1;3;7;7;21;21;85;55;293;199;1671;1881;7147;8241;16173;51873];
[15012;1;3;1;15;3;61;97;191;435;511;1599;2705;1897;2607;1801;48583];
[15041;1;1;5;3;9;23;23;185;401;947;33;385;7491;14129;14561;13759];
[15053;1;3;5;15;19;21;37;233;149;673;29;1315;3487;6705;28283;43135];
[15056;1;1;1;11;9;35;101;255;345;829;689;2747;2145;2101;24863;35529];
[15059;1;3;7;9;5;5;53;247;157;729;1621;129;2485;5371;11115;47771];
[15110;1;1;3;9;29;29;13;229;87;281;1119;1085;4423;1667;27067;50397];
[15116;1;1;3;7;11;29;77;85;121;495;501;3209;3531;2307;11367;34135];
[15133;1;1;7;9;3;37;33;209;493;869;367;3221;1643;3353;22851;4313];
[15134;1;1;1;7;15;53;27;17;29;345;821;1831;1963;10089;5101;32689];
[15137;1;1;3;9;9;61;31;215;497;591;1301;157;3329;13877;9017;34673];
[15147;1;1;5;1;29;49;93;139;279;167;143;279;6145;6247;519;8869];
[15182;1;3;3;1;25;41;81;219;505;335;1941;2963;413;775;4181;55269];
[15203;1;1;1;11;27;23;91;9;497;811;1469;1999;5377;2943;17635;11151];
[15215;1;1;5;15;17;23;15;235;271;749;1873;3805;5405;7421;24339;14351];
[15245;1;3;7;1;5;61;81;9;269;43;1391;2711;6973;11299;2263;8715];
[15246;1;1;5;13;11;1;69;235;25;227;63;2591;913;12555;6263;38981];
[15264;1;3;1;7;17;7;97;251;149;959;1895;1179;4031;15975;20313;64067];
[15269;1;3;7;15;3;17;85;229;149;925;585;3755;2359;13131;12665;28861];
[15296;1;3;3;9;5;31;107;93;347;851;1249;2161;6095;8315;20259;39527];
[15314;1;3;7;7;21;63;85;241;501;627;1211;1713;6907;4229;7557;55719];
[15323;1;1;1;13;19;43;21;177;13;353;679;511;5565;993;25345;25087];
[15364;1;3;3;15;21;15;87;83;381;547;1429;2417;2425;2097;20889;12353];
[15386;1;3;1;11;23;21;69;147;427;271;1829;525;2951;10773;32425;17685];
[15391;1;3;1;7;15;55;21;131;195;927;635;3505;3817;14883;1149;10079];
[15436;1;3;3;9;23;15;45;147;249;87;377;1551;4343;15373;2895;44973];
[15460;1;3;1;7;31;63;67;107;109;1019;815;231;8135;559;8175;21735];
[15464;1;1;5;7;7;63;103;133;167;883;1647;2827;6015;8541;16963;37129];
[15469;1;3;5;9;27;25;59;147;29;943;865;1233;2165;15259;2235;25831];
[15470;1;1;5;7;25;5;67;89;493;111;359;1115;7963;6545;7749;29179];
[15477;1;3;7;5;19;17;89;195;337;115;1417;3837;4761;1959;16205;61597];
[15488;1;1;5;11;25;43;3;111;491;897;1541;909;4751;739;7827;64485];
[15494;1;1;5;15;19;61;39;111;451;419;1657;2427;4589;5577;23967;19259];
[15548;1;3;3;1;31;15;7;131;329;847;537;1775;3833;5683;17267;16389];
[15551;1;1;7;1;9;29;13;25;409;513;1695;2175;5099;727;5723;43547];
[15560;1;1;5;7;13;11;29;123;127;193;1647;3157;2149;16209;19909;14473];
[15563;1;1;1;15;15;37;125;157;487;143;1891;2895;4397;10685;1463;55027];
[15604;1;3;7;1;1;15;115;105;479;529;1095;2687;4483;15027;15487;7113];
[15607;1;1;3;9;23;63;113;211;155;931;175;3037;2359;10413;24561;21099];
[15616;1;3;3;11;5;15;13;37;257;447;203;545;2467;9979;17543;62703];
[15631;1;1;3;7;17;31;83;91;79;265;1415;2347;5337;7615;27739;33841];
[15699;1;3;5;7;17;63;37;153;347;909;1945;7;2071;15195;32083;26713];
[15701;1;1;3;11;19;51;69;21;323;635;443;1685;6275;13787;20921;45553];
[15708;1;3;3;7;15;35;67;247;257;429;2029;523;3219;3893;26677;53273];
[15739;1;1;7;9;9;3;119;121;445;149;1539;1887;2995;14867;809;48065];
[15746;1;3;5;13;15;27;75;9;217;35;1363;2383;4357;1153;20565;62277];
[15772;1;1;7;1;21;1;11;53;331;765;407;453;2725;11199;645;14915];
[15793;1;1;5;1;29;11;5;159;395;53;323;1347;5529;8525;24003;20535];
[15832;1;3;3;15;9;19;87;181;391;639;703;611;997;359;2471;58465];
[15837;1;3;5;9;27;9;117;47;223;509;1537;1235;3885;6767;17131;63421];
[15866;1;1;5;1;15;15;113;67;477;597;1795;3065;4565;3609;16419;19667];
[15899;1;1;7;11;1;63;33;211;271;773;499;2309;1303;14015;30377;53195];
[15911;1;1;7;11;5;23;17;183;321;315;203;3371;907;9331;21031;33765];
[15918;1;3;3;7;7;53;111;69;441;283;195;2415;7293;7659;2731;5417];
[15952;1;3;5;15;3;61;5;241;427;463;1729;653;7671;10979;7247;36931];
[15962;1;3;1;9;3;5;105;117;465;853;2005;3925;4419;4441;3701;50747];
[15967;1;1;3;7;1;3;3;149;65;405;299;99;481;14323;11565;6227];
[15973;1;3;7;5;29;3;19;3;253;895;879;2435;2151;10673;11013;43055];
[15977;1;3;1;11;15;57;127;197;319;913;1039;811;7767;5791;31725;8733];
[16016;1;1;7;3;13;25;25;81;229;185;39;2789;579;4973;28617;60871];
[16035;1;1;7;3;25;17;41;7;103;269;55;2651;7579;10935;8917;14323];
[16044;1;3;7;7;13;7;99;205;293;877;1893;3013;2389;6021;2645;18175];
[16067;1;1;3;7;9;39;59;187;191;761;339;3381;2921;5197;16963;43019];
[16082;1;3;3;13;7;23;41;203;311;981;323;1675;6689;579;3885;64475];
[16084;1;3;5;15;21;39;35;193;167;1009;493;829;6571;1299;13061;1163];
[16098;1;1;3;5;3;19;123;123;111;599;193;3419;7173;5595;12449;52247];
[16107;1;3;5;11;9;25;65;49;239;953;481;3455;4335;305;22469;11949];
[16142;1;1;3;7;15;1;13;77;147;49;1445;931;3405;15951;15215;26451];
[16149;1;3;1;1;21;53;17;7;247;243;805;795;489;13351;13493;30937];
[16165;1;3;7;5;5;13;39;115;397;757;423;2559;1677;9449;24563;869];
[16172;1;1;3;11;23;9;27;233;165;853;1721;599;551;11657;27623;40119];
[16178;1;1;3;1;3;47;75;207;113;417;1317;2215;2395;1841;23125;50401];
[16197;1;3;3;1;13;55;103;55;351;785;1665;3603;7705;4811;21129;38115];
[16201;1;1;1;5;5;49;93;189;317;701;1545;1017;4133;7655;19827;52155];
[16215;1;3;3;13;17;37;7;249;139;529;235;3801;7871;459;15127;13231];
[16221;1;3;7;5;7;63;99;241;131;455;1287;3539;8029;12661;23313;54029];
[16226;1;3;1;3;29;63;51;227;497;685;1351;449;7851;10815;17379;62097];
[16232;1;3;1;11;25;61;73;29;467;533;855;853;5557;10953;18307;27135];
[16246;1;1;7;3;13;49;63;171;177;283;1365;3087;5445;15109;12523;25193];
[16261;1;3;5;15;9;39;95;81;417;199;1653;3673;2663;8101;12199;22759];
[16279;1;1;3;9;29;15;29;215;21;721;245;1197;7251;5721;6735;7751];
[16280;1;3;5;5;21;7;81;61;157;707;819;1689;4203;5559;25483;43325];
[16290;1;1;7;13;15;51;47;197;269;921;353;2865;6227;537;20015;53823];
[16314;1;1;3;5;13;25;91;221;111;587;1119;2343;4651;4641;15915;36323];
[16345;1;1;7;11;1;45;7;215;483;545;731;3041;3121;8681;20651;4069];
[16355;1;3;7;13;13;27;109;65;103;805;299;2069;6017;14565;20505;16161];
[16361;1;1;7;5;11;33;105;213;237;583;1033;2333;845;6493;505;2563];
[16393;1;1;5;7;3;5;11;173;373;341;269;177;3175;9413;601;13591];
[16394;1;1;5;13;7;57;61;187;121;405;665;111;7535;3355;14051;511];
[16438;1;1;1;3;3;29;15;253;227;123;333;1343;7313;1955;17741;30831];
[16450;1;3;5;1;5;47;65;183;199;839;925;2711;4609;201;15177;29817];
[16507;1;3;7;9;21;63;5;163;265;581;1795;3937;4641;2073;32225;60831];
[16523;1;1;1;5;7;47;125;203;511;841;1937;3431;1495;12827;5893;19265];
[16533;1;1;5;5;9;49;17;247;391;241;3;2253;6319;89;4449;6371];
[16603;1;3;1;1;31;7;51;61;461;391;273;1609;5825;16029;3851;39213];
[16648;1;3;3;7;29;21;65;75;317;925;1319;3827;965;5685;17007;64365];
[16653;1;3;1;5;23;23;109;59;31;659;635;2209;857;9847;2507;18325];
[16672;1;1;1;1;17;51;53;77;461;147;229;2821;2405;1259;1121;17429];
[16682;1;3;5;3;31;3;57;157;321;731;1609;2139;899;12599;19803;51083];
[16709;1;1;3;11;27;43;73;209;431;587;1247;2803;3593;1351;18701;33423];
[16713;1;3;5;13;27;19;67;245;339;879;2035;1801;5845;3883;22057;15771];
[16719;1;1;3;11;11;55;93;51;57;127;1325;3975;3989;2347;18831;2979];
[16733;1;1;1;13;17;1;17;103;303;777;1973;2943;7439;8953;27227;10229];
[16740;1;3;3;15;1;41;53;219;415;399;995;205;7719;10937;31879;755];
[16761;1;3;7;9;13;7;99;93;419;1019;1605;161;3831;9147;7877;1333];
[16767;1;3;7;15;5;51;37;115;259;549;353;2067;7657;1283;20333;2325];
[16771;1;1;3;3;23;33;63;233;363;719;1099;471;3079;10577;19063;31535];
[16788;1;3;7;15;23;19;109;105;497;881;1055;537;4607;239;22785;60201];
[16811;1;3;3;5;19;11;1;207;163;437;713;667;1427;7505;28055;43101];
[16814;1;3;5;5;25;45;75;9;109;545;573;2685;1013;2973;18619;55945];
[16816;1;1;1;3;27;27;39;33;285;453;613;2707;2155;4355;21105;7969];
[16828;1;3;3;9;1;31;71;101;491;409;65;1479;5743;525;2863;53657];
[16834;1;1;3;1;17;63;55;11;125;447;275;2243;6827;5753;32401;13819];
[16863;1;1;3;9;21;47;5;127;285;471;1681;945;6141;5651;10273;30811];
[16864;1;3;3;1;13;53;91;3;255;429;107;2937;2971;10251;15009;37477];
[16879;1;1;7;13;21;63;73;3;63;491;101;1981;7457;879;6243;22275];
[16888;1;3;1;1;11;43;121;101;293;639;645;2723;2075;3629;22105;18199];
[16904;1;1;3;1;31;9;69;97;511;663;1147;1237;389;255;8661;38533];
[16909;1;3;3;7;3;13;23;71;197;439;2003;1771;8073;1549;29089;5409];
[16921;1;3;1;1;9;23;1;221;159;699;593;3385;3869;10105;22097;34753];
[16934;1;1;7;1;29;47;41;137;333;357;325;3151;6641;3823;8763;28327];
[16951;1;3;1;7;19;19;39;225;477;619;583;229;6177;9615;1203;13711];
[16983;1;1;3;13;9;41;127;147;13;301;861;2019;3517;1147;21587;42387];
[16999;1;1;5;11;9;63;11;121;251;199;483;2287;4667;3887;10611;6019];
[17000;1;1;3;13;23;19;89;73;355;399;749;687;5707;11443;817;38967];
[17006;1;3;5;9;3;23;115;207;373;541;73;1285;7245;12505;5787;61207];
[17020;1;3;5;15;27;37;115;203;195;793;1577;1283;7299;4025;5319;5375];
[17030;1;1;7;15;25;19;61;11;215;771;1057;451;1965;13693;25617;42657];
[17033;1;3;3;7;1;19;23;217;175;901;2009;2989;5111;5027;4805;37843];
[17044;1;3;1;11;11;37;3;131;459;769;201;3979;3009;8691;27005;32175];
[17051;1;3;5;7;27;27;117;23;403;1003;1501;785;6313;10187;5085;30751];
[17072;1;1;7;3;11;41;73;151;19;657;131;1901;3879;14995;24085;56621];
[17078;1;3;7;15;23;3;61;199;67;483;1961;3583;5937;5749;16685;11831];
[17084;1;1;3;15;25;15;97;9;299;641;883;2901;123;1523;7055;15609];
[17087;1;3;5;5;31;55;19;45;239;543;2005;1041;1711;11059;19927;17475];
[17090;1;1;3;9;5;59;105;209;323;613;1963;2227;2947;11761;21375;13265];
[17123;1;3;3;15;1;5;117;37;93;243;305;2299;5163;9205;28761;35987];
[17132;1;1;1;5;5;29;13;147;457;187;1729;1547;7745;13155;7833;57449];
[17140;1;3;3;13;1;51;49;253;23;389;1611;3045;5909;3947;25105;3327];
[17149;1;3;1;11;15;47;19;15;231;57;763;1879;1765;14861;22893;19437];
[17157;1;1;3;15;1;19;85;65;139;629;361;3513;3807;799;8349;29247];
[17164;1;3;3;13;9;11;65;201;471;89;355;121;3947;10775;3599;6041];
[17170;1;3;7;3;5;53;33;167;431;129;1449;3263;7691;12569;7551;41101];
[17179;1;1;3;15;9;41;5;239;361;773;955;3663;6051;12889;5841;59615];
[17237;1;1;7;5;5;33;97;9;495;845;1953;3533;5715;15055;25211;9351];
[17248;1;3;1;11;25;37;83;153;289;739;353;1121;7641;2081;28439;38085];
[17260;1;3;1;1;27;9;63;135;395;641;1759;3727;4371;5193;2783;12389];
[17272;1;3;3;15;3;9;5;153;111;675;1957;3817;4269;10787;3413;34199];
[17275;1;3;5;9;23;23;97;137;255;249;333;2329;1055;13769;13109;33443];
[17287;1;1;1;15;7;37;99;219;483;755;263;3523;6179;4817;29873;12771];
[17294;1;1;3;5;23;7;77;97;105;631;175;1911;7271;1009;24081;61207];
[17296;1;3;5;3;1;31;71;91;265;669;1839;3989;8127;15001;1419;8895];
[17305;1;3;1;13;27;51;93;155;49;991;653;203;3863;5363;31969;36083];
[17312;1;3;3;7;31;27;21;73;21;675;407;1215;2963;6799;15259;13125];
[17321;1;3;5;13;5;53;19;215;243;487;689;2519;6393;3987;30847;37919];
[17367;1;3;3;7;5;31;115;231;255;955;2023;1487;6575;9873;22585;29951];
[17368;1;3;5;11;11;57;109;203;417;29;1311;893;1047;2413;9305;38219];
[17378;1;3;1;7;23;51;113;3;105;915;1145;3431;7331;3323;31669;21485];
[17433;1;1;7;13;9;29;119;205;403;1023;257;863;2983;1895;16539;23385];
[17455;1;1;7;13;27;21;47;139;341;509;1107;2197;3649;14301;30789;48783];
[17457;1;3;3;7;25;19;99;11;309;919;1809;3015;1587;3779;1289;30207];
[17508;1;3;5;11;9;43;57;171;9;151;173;2301;7723;2083;319;52883];
[17559;1;1;3;1;3;13;63;11;231;117;1257;237;581;13871;15501;8741];
[17560;1;3;5;9;13;63;55;155;291;721;123;929;3351;11651;12513;1779];
[17582;1;3;7;3;31;5;61;81;465;639;1363;3157;2401;9513;32559;34477];
[17596;1;3;1;15;27;25;3;117;277;13;707;3825;7287;10181;30127;57247];
[17599;1;1;7;11;21;21;53;17;407;851;1191;285;6815;1595;25507;8099];
[17613;1;3;5;9;9;61;83;61;65;671;63;311;6897;15327;29809;4899];
[17619;1;1;7;1;21;45;99;235;477;461;1119;4087;2057;14861;31969;24357];
[17622;1;1;7;9;31;9;65;123;281;273;1059;1625;6265;9635;11563;45053];
[17655;1;3;3;7;1;41;15;23;43;727;1271;1741;765;13265;4145;1335];
[17661;1;1;3;7;17;55;107;231;263;197;659;3621;2789;5171;28635;13595];
[17698;1;1;5;1;27;23;13;83;431;507;1571;1573;1733;12171;8181;30843];
[17712;1;3;7;11;1;53;107;39;497;579;453;1339;1415;10317;2741;34599];
[17715;1;3;3;5;31;41;49;41;33;665;1783;87;317;6603;22603;22879];
[17721;1;3;1;15;5;47;41;87;231;853;1615;2299;4643;9249;15641;14323];
[17722;1;3;7;9;5;45;55;153;31;247;67;2335;6057;4379;27579;38437];
[17742;1;1;5;7;9;3;73;81;479;909;1097;3945;4485;7815;22855;20825];
[17778;1;3;1;15;19;43;97;57;339;167;135;1777;7681;9715;13863;6347];
[17818;1;1;1;1;5;53;33;123;449;165;1283;2977;5919;12929;32073;61851];
[17836;1;1;5;15;27;27;19;157;267;651;1319;3841;7739;9947;16801;41325];
[17841;1;3;7;9;19;7;83;95;401;293;437;1983;119;7553;11097;11925];
[17856;1;1;3;5;21;1;53;201;385;843;1801;99;2697;9659;28789;31417];
[17883;1;1;5;5;29;57;103;89;77;597;1849;3433;4267;11167;3841;44023];
[17896;1;1;7;1;21;47;113;253;249;431;1899;2859;7345;5725;14805;19999];
[17901;1;3;3;5;1;11;77;213;359;665;1855;2743;2407;14677;17957;63257];
[17926;1;3;7;13;23;29;127;183;275;849;1005;3159;3867;13029;7527;13035];
[17937;1;1;1;15;29;47;81;225;77;879;1279;1929;1457;2025;32229;2847];
[17992;1;1;1;3;29;45;37;189;217;53;281;1785;1929;763;5875;34303];
[17995;1;3;1;9;21;61;21;149;215;13;1221;5;7153;14089;3119;33115];
[17998;1;3;7;11;7;57;89;185;485;649;1765;747;2983;6791;25015;13627];
[18021;1;1;1;9;11;53;77;203;425;237;487;2317;1047;8277;23405;30445];
[18039;1;1;3;5;7;29;39;195;109;381;655;931;4469;16215;10627;64171];
[18067;1;3;1;3;5;9;89;131;509;275;489;3161;3701;11951;6579;42839];
[18122;1;3;7;13;15;37;65;91;305;433;1815;169;3117;47;30331;34863];
[18129;1;3;3;9;21;3;21;113;25;833;1579;4021;3481;55;20833;46277];
[18130;1;1;1;5;19;37;61;229;61;363;817;1235;6235;7261;29917;43057];
[18142;1;3;1;9;7;59;119;189;341;945;633;3683;2589;15453;4989;40055];
[18148;1;1;1;5;25;63;61;73;207;205;1011;2857;8137;2121;26731;46011];
[18163;1;3;7;11;13;59;107;57;49;555;441;1771;4939;12107;8263;16243];
[18192;1;3;5;13;15;49;89;217;83;225;2001;2727;4651;619;16473;47525];
[18211;1;3;5;9;5;63;115;91;337;757;703;559;1683;14875;30769;30331];
[18228;1;3;1;15;3;3;119;79;487;519;523;1177;7105;12343;24671;31711];
[18264;1;1;7;15;25;63;87;23;59;277;849;953;4567;11309;26181;749];
[18347;1;3;7;15;5;33;21;127;3;239;839;997;7253;8183;19779;4185];
[18372;1;1;5;15;25;37;99;51;465;137;1339;541;4319;9883;17425;30743];
[18409;1;3;3;5;13;7;3;249;365;749;527;3675;3005;12905;9621;899];
[18412;1;3;3;7;29;31;69;21;365;1021;1329;2623;3549;5491;21293;63771];
[18418;1;1;5;9;5;35;53;247;193;17;227;381;5233;821;3991;4439];
[18423;1;1;7;15;5;59;27;167;489;335;1565;2999;1777;5009;519;57967];
[18433;1;1;1;11;25;47;23;155;419;863;1905;355;1089;5871;10149;53341];
[18439;1;1;7;7;29;55;127;83;33;309;2017;1021;5987;1101;13657;60587];
[18445;1;1;1;7;3;1;9;75;257;407;659;529;2087;14759;14483;36425];
[18451;1;3;7;3;11;29;113;255;301;799;1171;3721;135;3467;7109;50339];
[18467;1;1;1;7;21;25;15;31;61;491;57;189;2033;4363;31295;16313];
[18502;1;1;5;1;5;17;33;77;483;469;355;2245;4165;459;30411;29507];
[18514;1;1;3;13;1;27;29;85;491;787;1157;1299;4743;14795;32587;12807];
[18547;1;3;3;1;23;45;35;129;3;55;969;2387;3929;10397;19879;2723];
[18575;1;1;1;7;19;3;9;23;497;347;2039;913;5925;7965;5789;40949];
[18593;1;1;7;1;29;61;89;3;133;647;1585;2661;1875;1859;3937;12707];
[18613;1;3;3;7;25;11;41;149;427;463;901;2433;2617;13511;3443;39867];
[18620;1;1;1;5;27;33;103;251;201;1023;1979;3745;6365;14945;22153;55535];
[18637;1;3;1;15;23;25;57;215;111;181;385;1123;3095;7085;31863;37393];
[18640;1;3;5;13;17;35;27;159;255;241;413;1823;5329;1825;28489;58763];
[18712;1;3;1;15;3;33;97;27;409;889;409;2315;4743;14827;3037;57149];
[18728;1;1;3;5;19;63;93;51;233;715;1571;1101;2751;14805;25683;13323];
[18742;1;3;7;3;21;15;117;179;263;229;199;2597;3999;3037;3801;4775];
[18748;1;3;3;15;1;15;49;91;383;21;1955;773;1213;5971;19525;8699];
[18753;1;3;1;15;29;49;11;101;261;761;709;3811;4055;15675;32305;15173];
[18756;1;1;1;3;9;41;127;23;413;461;237;1595;2257;2971;31845;61485];
[18771;1;1;1;11;23;13;63;21;23;209;1317;1071;3619;7275;9343;21455];
[18814;1;1;5;9;31;35;41;249;477;569;1175;1571;4679;10337;3507;23415];
[18818;1;3;5;11;29;3;117;65;301;913;1709;1765;1801;15513;31495;38131];
[18827;1;3;5;11;27;3;71;195;81;313;505;3941;3797;2031;24151;65085];
[18835;1;1;1;5;13;17;59;151;191;489;1267;3207;4495;15145;12789;46313];
[18842;1;3;1;7;29;9;25;31;33;527;1939;4089;333;757;8895;25331];
[18854;1;1;1;1;9;27;11;205;211;141;1171;1881;4029;10587;30103;39661];
[18858;1;1;3;3;23;3;23;175;355;753;183;1331;6403;3369;29891;11109];
[18895;1;3;7;3;17;25;95;145;135;525;1073;1841;3951;2027;23053;19699];
[18914;1;1;5;3;11;43;117;67;299;885;1095;2777;8185;14331;29543;655];
[18925;1;3;7;7;3;59;127;147;323;713;99;1179;6395;1821;12673;35587];
[18933;1;3;5;3;7;11;33;87;99;967;1443;1585;6215;15125;30747;21513];
[18937;1;3;7;11;23;5;91;171;229;601;833;3157;1691;15081;20607;7643];
[18944;1;1;3;1;5;1;39;59;157;7;601;2079;3045;3693;26511;13245];
[18973;1;3;5;9;9;27;83;135;185;379;2027;1407;7409;7363;26471;35907];
[19001;1;3;7;15;29;49;1;69;383;915;183;3809;4511;8751;4715;7033];
[19012;1;3;3;3;1;17;71;233;243;933;1165;3089;3565;6521;13203;13065];
[19016;1;1;5;9;9;55;53;129;331;943;587;2573;2247;15101;4987;62983];
[19027;1;3;1;13;11;43;45;127;129;857;669;321;3915;4477;26973;19911];
[19040;1;3;1;13;15;3;83;23;13;441;953;2373;3539;4895;26327;61961];
[19074;1;1;5;13;23;11;125;83;339;901;1809;2691;3789;15007;10569;65399];
[19085;1;3;1;1;17;27;105;199;435;245;1227;3029;3911;1021;2931;24957];
[19093;1;3;1;11;17;5;123;39;413;627;1149;3925;6635;8959;31387;65047];
[19100;1;3;5;1;23;41;93;217;21;115;1311;3901;2559;2925;30755;7575];
[19107;1;1;3;9;13;11;63;171;135;983;1679;395;7349;5153;26405;40589];
[19128;1;3;7;13;27;47;53;169;85;871;1087;619;7399;9719;6349;59211];
[19141;1;3;3;15;31;45;3;33;11;879;929;1977;1939;1049;16159;41515];
[19142;1;3;5;11;9;27;13;23;127;747;1121;2497;8141;8601;12431;3243];
[19156;1;3;7;15;23;43;23;225;283;13;1837;2089;6435;10121;22307;58767];
[19169;1;1;5;11;17;3;41;221;143;669;261;1367;7813;15265;32751;62007];
[19176;1;1;1;1;5;45;41;161;327;185;1403;485;2831;10025;12555;47661];
[19222;1;3;7;1;31;55;87;83;439;929;653;4095;5443;7361;27801;12979];
[19226;1;3;1;7;1;57;11;145;55;269;711;1889;8023;7171;3247;35691];
[19247;1;1;1;3;15;1;15;131;479;797;815;2343;1603;10775;21341;20825];
[19259;1;3;5;9;3;27;31;117;441;177;215;3991;3197;8397;19195;3883];
[19262;1;1;5;13;1;19;13;27;157;1001;43;251;7997;7495;16515;44287];
[19291;1;1;3;5;17;57;117;53;413;905;551;149;7531;14885;32493;34961];
[19309;1;3;3;7;27;1;7;13;259;21;189;451;6171;3603;12053;45619];
[19324;1;1;7;11;5;41;59;119;419;93;1399;629;1269;3789;17035;61583];
[19334;1;3;5;11;1;11;59;83;473;273;839;3111;3081;10159;6143;16297];
[19338;1;1;5;15;25;15;17;63;275;927;189;89;6595;4399;27201;57205];
[19343;1;1;7;3;31;17;63;203;321;655;1751;2985;3291;11567;15135;49747];
[19376;1;3;5;13;27;25;89;39;299;833;1269;271;6481;3045;7203;20279];
[19408;1;3;1;1;29;13;13;37;33;563;1825;3257;3153;963;25801;15861];
[19413;1;3;5;11;15;7;49;117;479;221;579;2995;1673;14927;2869;35547];
[19420;1;3;1;11;31;11;77;161;183;187;1967;3037;4441;10547;1443;8619];
[19441;1;1;3;11;27;41;83;179;293;421;1395;1673;6375;9801;14265;18117];
[19444;1;1;3;7;9;19;55;235;499;637;1121;3583;8007;3749;20903;6179];
[19454;1;3;7;13;9;55;125;77;395;9;2005;2247;1609;6805;13099;26367];
[19461;1;3;5;13;9;41;49;133;443;995;209;341;8013;11037;29663;21161];
[19473;1;3;1;1;1;47;45;243;161;433;129;39;4885;8777;6395;16953];
[19479;1;3;3;15;11;13;41;113;279;657;763;2411;7115;463;10759;50493];
[19489;1;1;5;5;31;5;25;181;385;445;625;313;4983;11763;6065;63835];
[19591;1;3;3;15;13;25;103;5;205;223;1327;73;677;6751;2071;24963];
[19605;1;1;7;15;21;61;21;11;47;775;113;991;1943;1459;18049;45025];
[19616;1;3;3;1;11;43;27;89;49;711;173;181;1261;2751;21321;5467];
[19619;1;3;3;7;17;7;57;61;87;973;985;1849;559;7319;11457;46071];
[19653;1;1;1;1;9;37;99;157;423;189;1355;3983;6357;10825;26517;45815];
[19654;1;1;3;11;23;33;57;55;59;831;339;725;359;14859;17523;36149];
[19681;1;1;5;5;27;29;47;147;153;801;1737;3617;5447;8011;30631;7921];
[19711;1;1;5;1;11;43;35;105;69;453;1023;875;6755;6015;12449;50235];
[19719;1;3;1;5;29;31;43;89;369;891;1447;353;8103;2555;1197;64005];
[19726;1;3;3;9;21;33;117;205;473;289;1699;2361;7083;13001;24127;48611];
[19738;1;3;3;15;3;23;79;139;475;511;181;1331;6137;2653;14071;16947];
[19767;1;3;3;1;11;47;51;217;305;599;1609;237;4537;5377;717;13269];
[19819;1;1;7;3;19;31;1;173;509;817;785;1223;5585;8911;643;44575];
[19864;1;1;3;11;5;11;31;129;269;369;1833;2885;441;11517;2323;26735];
[19867;1;1;5;9;7;51;31;21;5;157;541;2939;4569;1679;17467;27995];
[19885;1;1;7;3;21;33;85;213;41;851;1947;3205;5065;6079;30789;63677];
[19894;1;1;5;3;9;53;3;179;157;407;537;1193;4645;13791;28153;11349];
[19900;1;1;7;13;25;61;9;151;263;143;1583;2859;6617;8861;4163;40695];
[19903;1;1;1;1;7;25;19;207;335;1019;1919;3893;831;12421;4667;38967];
[19941;1;3;5;3;5;51;81;9;425;333;451;2569;2771;12145;26065;14385];
[19951;1;1;3;7;3;49;17;147;327;331;1197;7;3703;15247;9723;52819];
[19959;1;3;3;7;27;21;117;229;255;603;195;1049;6243;13593;14553;8267];
[19966;1;1;5;15;9;53;1;187;79;151;321;1883;6105;13879;8201;53213];
[20009;1;1;1;7;21;27;103;147;351;901;1927;2145;2685;453;15173;7371];
[20018;1;1;3;5;21;27;125;77;395;27;827;3617;6033;1511;29461;18907];
[20020;1;3;5;3;3;27;75;129;441;831;1213;2499;5829;12181;7991;58167];
[20038;1;1;1;9;3;33;85;135;45;405;1731;551;1251;7895;3975;41621];
[20049;1;3;5;7;19;19;25;7;477;569;1089;2705;6157;10279;14029;36229];
[20066;1;3;7;3;5;19;99;137;67;361;2021;2891;1957;14961;22673;45707];
[20108;1;3;7;1;21;11;81;225;151;235;1761;3875;7427;11213;27023;17945];
[20130;1;1;7;1;3;1;3;123;39;769;1467;1907;7833;2099;19;54653];
[20132;1;1;1;3;25;35;33;111;407;497;1527;3999;3083;6221;8319;56959];
[20167;1;1;3;15;21;49;113;11;191;801;1835;3413;3379;13129;3655;23885];
[20219;1;3;1;5;21;57;87;133;409;325;569;2099;8143;315;23287;21905];
[20227;1;1;5;5;21;43;25;169;265;123;81;2683;6137;7341;16383;26435];
[20263;1;3;1;5;23;17;125;173;3;829;693;751;8021;3701;32643;35405];
[20267;1;1;3;1;31;13;1;195;435;487;961;1681;1233;6001;3113;29515];
[20272;1;1;7;5;9;41;81;137;257;337;1837;145;4191;6313;9991;25541];
[20289;1;1;5;13;29;13;1;117;501;991;571;793;1433;6005;19;61135];
[20296;1;1;7;1;9;43;65;69;297;331;1777;1843;6477;13943;1301;51001];
[20307;1;1;1;3;7;35;23;211;33;649;255;1831;635;9965;16679;14531];
[20316;1;1;1;13;23;57;113;247;321;401;1761;4001;1823;14457;5251;4965];
[20323;1;1;5;5;31;5;53;103;297;575;1577;2217;977;14415;16953;14793];
[20335;1;1;5;7;9;19;25;29;121;563;1707;901;6167;10799;11897;31187];
[20344;1;1;5;9;17;39;89;29;251;259;411;819;6037;4601;11481;46141];
[20354;1;1;1;15;23;9;65;95;189;93;1485;2417;5183;5513;26623;42637];
[20360;1;1;5;5;3;3;113;161;463;225;1089;2023;2341;14931;28097;56365];
[20368;1;1;5;9;9;3;109;141;27;473;107;4023;3279;7595;13289;35649];
[20390;1;1;5;3;9;37;73;153;487;57;2035;3583;239;2183;10903;171];
[20402;1;3;3;15;23;39;87;217;451;597;1817;2883;145;11341;16015;16765];
[20413;1;1;7;5;19;61;45;37;473;883;277;2801;13;7021;3851;53223];
[20425;1;3;3;9;1;35;97;237;279;541;1911;661;7603;8183;22071;37317];
[20428;1;3;3;11;11;63;101;71;227;259;1545;2779;3859;4859;18957;31749];
[20434;1;3;3;1;27;29;91;215;381;607;1701;1709;247;12403;29943;59533];
[20443;1;1;7;1;11;23;47;141;37;881;1443;3921;3281;7417;1549;50653];
[20488;1;1;7;11;23;61;17;39;373;871;1107;1875;1419;3981;1333;11485];
[20502;1;1;7;11;21;51;127;145;129;425;1263;1989;699;7317;24827;15049];
[20505;1;1;1;11;9;59;59;67;329;841;905;467;1905;895;29711;25585];
[20535;1;1;1;15;3;39;11;205;297;383;445;2139;2935;2399;22237;20355];
[20541;1;3;7;7;17;9;17;205;369;1019;1703;755;5507;14749;16461;14519];
[20554;1;3;7;3;5;31;97;35;43;249;773;4033;6085;1241;24743;22415];
[20577;1;3;7;3;17;11;45;203;251;669;1463;1897;7913;2315;30307;15431];
[20583;1;1;5;5;7;53;83;13;1;841;423;1059;3951;14209;11113;13931];
[20602;1;3;3;5;5;15;11;71;237;553;829;3653;4991;1003;8353;52173];
[20611;1;3;3;9;27;39;83;137;315;883;1155;3541;3815;10633;13277;20269];
[20614;1;3;3;15;13;55;43;19;345;351;1117;1747;1949;3195;12241;52441];
[20626;1;1;3;5;1;11;113;117;37;103;1681;3269;1659;14779;30479;31123];
[20628;1;3;7;13;1;63;9;63;65;737;785;1713;8123;10053;29871;17647];
[20635;1;1;3;5;17;45;71;37;283;145;1927;75;7355;4681;2777;31465];
[20642;1;1;3;7;21;19;113;89;67;751;99;421;201;6345;9473;39849];
[20674;1;1;5;11;31;57;75;79;393;745;1435;3039;1175;983;923;42867];
[20716;1;1;5;9;31;47;31;61;85;651;1733;3973;1979;7223;13817;30593];
[20734;1;1;1;11;31;21;23;177;401;55;537;3775;3241;15157;11849;15629];
[20765;1;1;1;13;31;53;79;57;35;617;61;89;6917;6045;23879;45485];
[20801;1;3;7;7;3;43;57;243;107;321;273;2171;2069;6171;29181;8281];
[20804;1;1;1;11;3;27;51;57;81;795;1673;2601;7335;16243;863;20663];
[20808;1;1;5;9;7;19;31;87;509;899;1133;1609;2163;7595;10523;43181];
[20831;1;1;1;7;21;53;103;43;507;317;685;1329;7057;7275;2277;28271];
[20832;1;1;7;7;3;35;81;81;261;587;1571;2771;4653;6517;25101;56753];
[20862;1;3;1;11;17;61;29;137;7;929;393;2513;2423;5457;6285;12525];
[20877;1;3;1;9;25;63;17;45;439;591;273;877;7741;8381;32277;24635];
[20880;1;3;1;5;19;11;17;175;297;77;961;3331;5193;14347;12713;32067];
[20885;1;1;5;11;3;17;13;21;219;653;1279;1657;7659;14459;27661;38093];
[20889;1;3;7;7;29;17;67;35;451;91;919;3163;7459;14971;4317;42503];
[20905;1;3;3;15;7;61;69;211;349;97;911;503;3903;12327;11049;29387];
[20914;1;1;7;3;5;7;63;237;387;931;693;1143;6545;8529;25217;53087];
[20967;1;1;5;7;1;13;21;169;259;289;437;649;4905;15261;29997;34043];
[21028;1;1;1;9;25;13;19;229;29;213;1941;1501;3463;15761;15635;39687];
[21031;1;1;5;7;13;29;101;57;483;913;1025;2139;4327;7847;12455;41797];
[21043;1;1;3;11;17;27;97;79;411;9;1797;3721;5291;859;8889;6151];
[21052;1;1;1;5;17;61;45;187;157;301;1017;1507;6031;4271;32593;23739];
[21058;1;1;3;11;31;39;7;169;15;799;1585;2055;4683;13247;23743;50399];
[21087;1;1;1;9;25;37;15;39;339;383;1153;1211;5745;15249;26021;39871];
[21088;1;1;3;13;17;51;27;137;231;877;309;3633;2575;12259;2743;14781];
[21093;1;1;5;7;5;33;95;19;37;829;1489;3525;3887;8277;21867;3581];
[21106;1;1;1;15;11;33;99;213;365;549;1603;777;3787;12209;14999;50607];
[21108;1;3;1;9;23;25;57;147;73;285;1229;1763;4579;14771;4003;38197];
[21118;1;1;5;1;15;55;25;209;135;895;311;139;2445;6903;12129;27907];
[21122;1;1;5;7;23;29;33;135;325;517;2021;1721;4235;2363;12905;18811];
[21131;1;1;1;9;3;19;69;29;157;787;1969;3711;8179;5691;4059;25541];
[21139;1;1;5;15;1;61;11;195;317;13;923;2149;4001;12843;27109;30625];
[21141;1;3;1;7;3;13;45;187;445;859;53;3227;4381;8273;32699;48719];
[21146;1;1;7;7;21;19;47;101;119;311;577;3309;4585;12109;15153;22915];
[21162;1;3;5;15;21;39;15;211;349;237;1873;3333;7837;12811;14321;20227];
[21164;1;1;5;5;19;47;15;239;23;763;537;1477;2231;10885;19487;47385];
[21184;1;1;3;1;19;37;67;85;11;817;869;2249;4111;12411;10405;20055];
[21208;1;1;3;3;1;41;85;137;91;369;1863;759;303;15859;8063;12811];
[21211;1;3;1;11;23;1;11;219;201;573;1573;619;2959;6485;7483;46099];
[21213;1;3;3;9;13;9;9;255;47;375;409;1435;1665;14967;3247;18193];
[21230;1;1;1;5;9;61;121;173;51;415;1621;3947;1379;847;23187;39259];
[21270;1;1;1;7;3;19;95;59;187;453;1533;445;2699;4817;25983;50925];
[21276;1;3;5;13;25;25;33;5;497;1;535;1653;6541;10939;17721;43829];
[21285;1;3;7;11;9;59;115;127;85;505;541;3243;5853;12673;25275;39577];
[21297;1;3;7;1;17;25;83;127;225;295;1823;2051;847;4249;13763;5723];
[21304;1;1;1;5;3;63;39;131;191;983;119;3287;3335;7969;31347;39439];
[21310;1;3;7;9;19;31;19;91;35;677;1229;1371;6497;3315;15239;54235];
[21330;1;1;1;15;3;49;113;199;135;35;709;385;7923;3711;18351;12711];
[21339;1;1;3;15;31;13;41;1;183;95;1625;1675;7881;6607;4165;27151];
[21346;1;3;3;15;21;57;81;49;5;297;131;883;1113;2497;32129;39139];
[21391;1;3;5;7;29;47;101;173;299;879;143;3341;3929;6797;8753;47963];
[21427;1;3;3;13;11;39;27;187;27;763;1515;1903;5897;10061;14595;12713];
[21451;1;3;5;11;27;35;37;213;45;867;1591;3083;8123;5045;31703;61487];
[21465;1;1;3;5;3;31;23;89;369;371;1165;3673;6821;333;10881;4153];
[21468;1;1;7;13;1;33;49;195;223;197;1799;2427;6171;493;13503;23619];
[21471;1;1;3;9;5;59;105;215;449;527;1661;2643;309;11239;11633;63459];
[21533;1;1;3;11;13;11;15;99;409;807;1911;883;1323;9037;6401;545];
[21610;1;1;5;7;7;7;1;167;353;923;1403;3109;4981;3877;25451;4667];
[21615;1;1;5;11;11;25;121;153;111;785;1301;1497;6267;14919;24125;52029];
[21630;1;3;3;5;29;55;63;177;305;41;111;1065;1127;113;2815;12979];
[21633;1;3;5;7;23;39;17;179;267;917;511;3923;915;14173;10689;50749];
[21657;1;1;5;3;9;45;15;157;495;625;407;2769;3267;7593;17957;54597];
[21658;1;3;3;11;21;13;5;207;107;965;1803;1541;3487;3483;109;26923];
[21669;1;1;5;11;25;49;99;135;109;371;1307;1815;1095;2329;27101;52269];
[21670;1;3;5;5;13;9;109;79;151;47;311;3873;3645;3773;1083;31599];
[21673;1;3;5;15;1;9;87;21;145;583;159;2435;587;10123;24803;19993];
[21701;1;3;1;1;23;11;5;45;373;1011;1353;277;7051;3845;12391;25313];
[21719;1;1;1;9;13;13;109;251;97;483;1723;2555;813;9345;11351;44705];
[21720;1;3;5;7;21;49;63;13;119;813;1559;983;499;15159;24163;59903];
[21747;1;1;3;5;27;33;27;165;207;693;1401;1357;7637;337;10163;43273];
[21819;1;1;5;13;29;7;71;187;1;655;1829;2645;6969;5435;28415;33199];
[21839;1;1;1;13;17;21;13;141;41;267;1165;1893;3455;10737;16693;33065];
[21854;1;1;5;1;7;27;7;67;107;11;763;2529;3023;15745;17023;51911];
[21857;1;3;3;3;7;57;123;249;309;511;1655;1379;725;7325;20261;65039];
[21864;1;1;5;11;3;27;23;27;285;771;2017;1727;4847;2665;30655;47625];
[21882;1;3;7;7;17;3;93;133;427;1021;1135;341;6711;11713;24157;1561];
[21900;1;1;3;7;15;55;11;247;65;115;1967;535;841;15131;28381;31337];
[21903;1;3;1;7;9;45;73;151;127;125;767;2003;6893;3875;451;30275];
[21928;1;1;7;3;5;55;127;123;163;763;1165;1637;6267;7215;23403;20961];
[21931;1;1;1;13;1;21;65;141;369;413;1675;27;7357;6929;18083;829];
[21946;1;3;5;13;1;17;97;107;249;931;47;3537;2245;9827;13673;23217];
[21971;1;1;1;11;13;19;43;31;51;727;1001;927;771;11853;5761;60537];
[21974;1;3;1;7;23;27;115;5;201;431;1021;585;6069;12511;6129;2105];
[21978;1;1;3;11;3;25;75;129;389;131;223;2263;5377;5561;15633;39527];
[21993;1;3;3;1;27;43;101;55;319;549;1971;2255;353;93;25661;59077];
[21994;1;1;5;11;29;57;27;135;341;913;1637;1781;457;11293;1013;53863];
[22030;1;1;1;11;3;51;79;251;443;651;393;3635;7397;5443;4225;991];
[22035;1;3;7;13;31;9;3;109;427;735;891;2789;2169;6459;355;43177];
[22063;1;3;3;3;13;7;93;195;293;37;75;2467;933;8017;9925;61397];
[22068;1;1;5;7;25;15;69;199;161;769;387;1491;4553;4173;25631;37089];
[22086;1;3;1;3;7;59;53;93;103;413;531;887;6149;2901;22611;27135];
[22104;1;1;1;13;31;39;71;215;385;821;1603;3043;4967;10953;11543;64433];
[22119;1;3;1;7;7;63;5;143;1;339;1165;3809;4257;12879;21581;21307];
[22153;1;1;1;15;1;35;67;227;277;879;513;3423;6153;11573;12809;34335];
[22168;1;3;7;9;9;39;47;17;101;179;631;1307;481;871;16807;39811];
[22183;1;3;1;1;13;25;53;179;285;267;407;3781;3267;3545;525;15733];
[22189;1;1;1;13;11;35;45;181;319;767;283;3021;5405;403;3587;7291];
[22204;1;1;7;3;5;9;67;129;101;117;267;1925;1209;13095;7123;62941];
[22230;1;1;7;3;5;63;109;199;95;421;193;3519;6551;955;1679;16627];
[22240;1;1;5;13;1;47;71;157;343;653;981;1335;3737;7185;28861;22883];
[22246;1;1;3;15;7;63;7;81;481;5;1159;1361;4167;2575;7437;16917];
[22269;1;3;7;1;27;17;61;193;317;841;1149;955;5161;4275;1955;15665];
[22282;1;1;1;7;19;63;77;57;367;237;579;3701;5763;4951;24151;45215];
[22302;1;1;5;11;29;7;119;155;431;999;757;2433;5811;3709;29573;23639];
[22330;1;3;3;3;15;35;125;13;275;507;1719;1537;2349;12909;8107;9845];
[22347;1;3;1;13;27;27;11;69;15;1017;207;625;809;2921;8939;30293];
[22349;1;1;7;11;31;51;113;193;69;845;73;919;3523;3987;23665;36527];
[22383;1;3;7;11;21;31;103;29;5;81;1081;3847;4697;8857;30769;40053];
[22386;1;1;1;1;5;11;5;169;13;899;769;3823;5405;5991;3821;27767];
[22432;1;1;3;15;1;35;9;83;23;701;1807;1681;4009;127;31751;38059];
[22450;1;3;3;7;9;61;73;111;193;607;2001;413;3751;16337;16597;23959];
[22473;1;1;7;7;21;29;53;253;187;507;1191;3521;463;2167;23785;19867];
[22487;1;3;5;3;19;43;101;93;257;61;1589;3883;1975;7283;5253;23257];
[22527;1;3;1;9;1;63;25;101;377;571;1701;3385;243;12051;32619;10459];
[22537;1;1;1;5;17;11;37;197;205;879;625;959;7389;7857;20615;20405];
[22557;1;3;5;5;27;41;9;109;197;623;1045;63;7977;11355;28613;5131];
[22561;1;1;5;11;5;29;27;85;131;247;433;3981;2677;15415;869;6045];
[22568;1;3;1;13;9;49;25;79;135;719;93;631;2149;5929;29833;38673];
[22573;1;3;7;11;15;13;37;233;227;205;1579;65;1429;13499;26355;63821];
[22591;1;1;5;11;21;19;7;183;409;275;899;3665;6207;849;24339;1617];
[22593;1;3;1;3;21;61;23;125;463;489;1265;2975;3907;11881;7533;43331];
[22605;1;3;1;15;15;51;83;31;175;47;1791;3651;6735;5013;723;24141];
[22620;1;3;1;9;17;41;57;43;469;911;1251;2105;3133;3437;10097;26687];
[22627;1;1;3;3;9;9;125;201;141;943;1509;1239;6575;8707;363;23309];
[22636;1;1;5;3;19;37;43;141;413;149;1449;1003;4473;12395;4101;61201];
[22647;1;1;5;11;17;37;41;33;57;627;325;1895;1773;1339;24859;587];
[22697;1;1;1;3;5;49;127;109;361;853;1437;3451;4031;5379;27463;47425];
[22715;1;3;5;7;9;57;71;219;347;791;797;73;6241;12717;24429;40977];
[22725;1;1;5;9;27;43;43;227;433;413;1109;2589;4535;8947;8121;43479];
[22732;1;3;7;1;9;21;81;23;157;313;197;2845;8059;15957;28657;28093];
[22749;1;3;1;11;15;17;115;27;421;743;1885;2089;5011;7137;7395;36853];
[22766;1;1;5;15;5;53;69;255;63;29;1011;3201;1467;15441;26255;62895];
[22768;1;3;1;11;3;47;35;195;149;849;1317;439;3539;845;15295;42183];
[22771;1;1;5;15;15;37;67;105;495;985;1777;3137;8039;11795;29771;35045];
[22788;1;1;3;1;25;17;67;227;229;419;1319;3325;1293;8585;28425;34013];
[22797;1;1;5;1;27;51;71;197;375;407;259;4005;3309;5475;13421;60065];
[22822;1;3;1;5;11;17;89;45;311;425;1629;773;7267;8699;27547;37081];
[22828;1;3;1;7;9;25;101;105;489;217;103;1959;4049;5793;31201;11947];
[22851;1;1;5;5;19;3;63;55;431;49;273;3253;5357;13801;9735;21883];
[22888;1;1;1;11;13;3;75;201;477;201;1875;657;6217;8651;2207;16421];
[22893;1;1;5;13;5;31;75;113;25;171;1147;3089;7095;4405;26155;42323];
[22901;1;3;5;5;5;49;99;171;445;1023;1793;3159;5809;12509;31723;60411];
[22902;1;3;7;3;23;51;111;27;103;159;433;293;1741;3599;4067;40667];
[22921;1;3;3;13;11;9;11;21;453;35;1649;1261;3539;14081;5581;57105];
[22929;1;3;3;13;7;9;113;87;391;647;223;1345;4481;9855;20129;10807];
[22946;1;3;7;15;3;61;15;117;97;495;985;819;181;1363;13111;35857];
[22948;1;3;1;9;3;27;125;151;217;961;707;2647;5307;621;12581;13941];
[22951;1;3;1;11;17;37;35;211;179;29;627;3623;6429;16237;24699;14385];
[22958;1;3;3;9;3;57;35;3;85;1017;1739;2241;7297;15637;27085;41237];
[22975;1;1;3;7;7;13;5;85;505;51;409;867;677;12451;13633;47883];
[22983;1;3;5;13;5;51;37;79;237;133;1331;3263;349;4971;16067;62485];
[22990;1;1;7;11;29;41;101;219;391;1023;1681;3163;4071;14665;11041;14523];
[23032;1;1;3;3;13;55;37;119;471;665;1315;3071;5993;12005;13549;63425];
[23047;1;3;5;7;5;25;59;71;77;841;91;1841;6997;1139;11843;52209];
[23053;1;3;7;15;17;25;85;173;373;459;1713;1055;5337;9921;15213;44235];
[23054;1;1;1;15;7;11;89;237;131;565;745;457;4447;5581;11053;43819];
[23082;1;3;5;1;29;21;11;7;125;851;2023;3321;1885;67;8809;43291];
[23095;1;3;5;11;11;43;41;97;353;813;85;2453;769;11709;4697;2849];
[23116;1;1;5;5;21;29;87;179;157;981;129;2139;6841;5479;27111;20749];
[23197;1;1;3;9;31;59;61;15;423;33;467;1817;6535;7341;31061;20937];
[23221;1;1;7;3;1;21;127;135;321;699;727;3079;753;3971;5611;28345];
[23257;1;3;7;11;27;3;39;63;389;433;43;1443;6241;10769;20485;58823];
[23260;1;1;1;11;3;13;5;57;503;707;677;3355;6691;8841;20041;11867];
[23263;1;1;3;11;31;39;107;221;81;125;1439;2429;2109;3931;31007;10915];
[23267;1;3;3;9;17;53;13;121;127;15;1825;1909;5951;13503;31565;56163];
[23282;1;1;1;1;19;55;3;153;385;277;1297;3655;6027;3057;11341;46989];
[23284;1;1;5;9;3;55;37;223;353;141;1917;3827;2255;7617;10971;10641];
[23314;1;3;7;9;29;41;71;19;137;243;2047;395;6981;15887;9479;60199];
[23326;1;1;1;9;17;43;51;191;405;727;485;987;1855;15801;22529;10165];
[23335;1;3;1;7;27;31;69;255;153;793;1353;1981;83;11387;6747;23379];
[23368;1;1;5;5;31;49;83;157;63;647;1367;3995;5899;8429;18317;3471];
[23373;1;3;5;13;19;15;99;13;143;887;529;2855;573;9799;13585;59263];
[23401;1;3;5;3;13;47;103;87;11;381;397;899;71;15539;13005;38297];
[23415;1;1;1;3;1;53;45;141;1;941;261;3291;5177;9843;6309;62799];
[23432;1;1;5;9;29;31;107;57;135;229;1147;247;265;12757;21365;7219];
[23476;1;1;1;3;1;49;55;247;495;449;141;1349;7393;2589;23587;1097];
[23479;1;3;5;1;9;11;73;153;89;575;1805;137;435;3687;32169;24275];
[23497;1;1;7;15;25;61;51;21;109;139;611;3907;6721;5081;6665;51463];
[23505;1;1;1;9;13;23;59;203;33;1013;1533;291;6171;15463;8581;9497];
[23508;1;3;3;9;7;25;51;189;49;265;1163;1141;2467;7839;7083;65527];
[23531;1;1;3;9;19;33;77;9;181;919;623;1521;7853;2199;24115;60607];
[23536;1;1;3;11;9;11;27;57;355;313;151;3391;4869;12541;30031;29455];
[23542;1;3;5;9;17;13;91;123;235;841;1113;1451;501;3863;32483;9445];
[23565;1;3;7;3;13;25;87;243;449;293;1279;3571;2693;13459;5895;38127];
[23573;1;1;3;15;27;61;7;57;255;971;131;2585;2187;7191;17779;34587];
[23590;1;3;3;7;23;29;55;41;463;873;1781;2851;4731;9819;25587;32199];
[23593;1;1;1;9;29;39;25;143;171;141;223;467;4417;9575;23159;33819];
[23604;1;1;5;13;19;61;19;75;25;361;585;1627;2231;1831;24885;37917];
[23621;1;3;7;7;23;19;59;55;323;55;143;131;27;15363;26423;43963];
[23622;1;1;5;5;25;9;33;17;427;481;315;3999;4757;4545;7695;56733];
[23636;1;3;5;13;5;59;45;117;115;263;1441;3307;1085;3875;25869;19725];
[23662;1;3;3;15;13;39;31;243;293;345;343;1911;6123;12577;32081;59993];
[23667;1;3;5;13;17;37;105;201;205;929;435;1467;8063;6963;13709;53275];
[23703;1;3;7;15;31;3;65;221;191;413;427;2579;377;2793;26943;61299];
[23725;1;3;5;3;11;61;75;107;53;689;1845;859;333;889;27607;48795];
[23734;1;1;5;7;1;11;37;181;323;187;1511;25;5517;11957;7093;429];
[23738;1;3;3;1;25;31;125;139;433;583;683;587;5389;1225;26047;18717];
[23752;1;3;1;15;23;33;23;147;279;513;157;4023;2669;7543;2111;9191];
[23800;1;3;1;1;5;39;55;127;257;649;347;3001;2215;15579;29665;10337];
[23803;1;1;1;15;19;55;105;183;505;1003;1311;2253;1861;3561;19581;46183];
[23818;1;3;1;9;23;5;127;215;195;817;719;1285;919;8627;20427;2723];
[23832;1;1;1;5;15;31;43;131;377;57;1531;915;2871;1805;19765;60529];
[23842;1;3;3;3;15;1;93;55;477;221;643;1319;959;475;14015;48823];
[23851;1;3;3;7;19;13;13;191;421;751;1103;2129;1973;14935;26485;41269];
[23873;1;1;5;13;17;43;81;83;67;643;1799;1157;4365;2815;29871;5351];
[23883;1;3;1;9;21;31;87;177;25;403;1357;4047;959;5133;7307;4333];
[23888;1;1;7;7;29;39;27;139;159;529;1323;3823;4569;12711;30263;10961];
[23910;1;3;1;13;27;15;59;1;107;723;497;43;143;16119;29177;5653];
[23934;1;1;5;9;15;41;23;109;101;639;277;1687;1311;1995;5403;6867];
[23938;1;1;5;3;13;1;95;177;379;545;789;3479;4135;445;5869;38923];
[23949;1;1;3;9;21;31;23;65;209;383;271;367;6605;1169;27267;9331];
[23955;1;1;1;1;27;39;121;29;155;465;947;2675;6753;11647;29781;30251];
[23967;1;3;1;5;7;45;7;21;223;363;1021;751;2257;14423;19629;64867];
[23973;1;3;1;9;31;53;13;99;49;389;867;327;4145;3265;15423;14985];
[23991;1;1;1;15;11;11;27;41;333;161;1343;2023;3789;13563;16957;26849];
[24024;1;3;7;1;7;51;7;163;239;393;231;3985;309;875;837;24791];
[24030;1;1;1;7;1;43;105;7;351;755;1781;1925;4961;2961;13427;44317];
[24039;1;3;1;9;17;39;81;75;201;931;1547;1857;7251;11687;14437;12603];
[24067;1;3;3;15;15;23;95;7;193;9;1749;809;5083;14645;24893;35979];
[24069;1;1;7;1;9;9;127;149;433;985;1347;3379;2881;681;20777;30703];
[24084;1;3;1;11;1;27;121;111;251;45;1341;1709;3733;11297;29063;57119];
[24112;1;3;3;1;19;3;77;127;187;831;1125;3119;4665;9857;5301;36755];
[24115;1;3;3;3;29;29;61;225;257;635;665;1279;3019;2401;8253;40251];
[24184;1;1;7;9;29;43;47;95;221;823;257;1485;5183;225;27675;60479];
[24187;1;1;5;3;15;49;25;69;101;393;901;305;4917;13479;30209;9199];
[24262;1;1;3;15;1;9;47;243;403;341;143;1365;1817;6017;3853;58625];
[24276;1;3;3;11;9;49;93;149;39;177;1863;1027;659;9253;2131;26943];
[24279;1;3;1;3;25;1;43;255;217;353;957;39;4607;15761;24291;33619];
[24313;1;1;1;7;29;51;71;237;1;703;19;213;6429;11783;22049;30597];
[24331;1;3;1;7;31;63;105;203;473;731;257;91;5749;4099;30125;40171];
[24336;1;3;7;9;7;29;119;181;225;743;1031;55;3997;16221;11663;14847];
[24348;1;3;3;11;5;21;43;17;473;981;125;2077;6141;4757;7585;29207];
[24367;1;1;7;1;27;61;27;45;267;483;119;767;957;3411;2653;53967];
[24372;1;1;1;3;9;41;43;17;485;253;825;3605;5919;9285;1815;6095];
[24402;1;1;1;11;7;5;53;107;309;609;1389;2035;861;15565;9375;42363];
[24420;1;3;5;3;27;57;7;177;183;227;865;183;2903;6325;4393;5257];
[24444;1;3;1;5;21;29;79;107;365;427;813;3563;7713;3865;4289;28555];
[24465;1;3;5;7;11;27;1;197;425;769;1737;3627;1273;4469;11967;823];
[24466;1;1;1;13;3;31;127;159;471;367;2047;949;1591;12429;21497;27153];
[24471;1;3;1;3;3;31;31;87;243;413;1777;1361;4575;1147;17451;33985];
[24475;1;3;3;5;13;47;45;3;165;329;743;397;2479;4999;12921;26689];
[24481;1;1;5;7;17;59;25;117;217;601;235;2691;5569;7853;31063;28281];
[24488;1;3;1;11;11;39;71;77;481;39;363;1921;3263;12849;13325;41803];
[24501;1;3;7;5;19;1;59;197;239;787;1657;1449;4245;1317;19609;53583];
[24514;1;1;7;1;13;33;81;53;223;323;477;2421;4045;1855;5823;9661];
[24531;1;3;1;7;1;3;121;19;329;569;481;3443;499;12407;19625;4627];
[24534;1;1;1;7;3;33;91;241;69;581;1635;1025;4677;14651;5229;19555];
[24559;1;3;1;15;9;11;99;47;489;755;601;1221;4251;4377;20567;33839];
[24602;1;3;3;5;21;21;127;151;499;971;1627;609;2365;3183;7413;697];
[24614;1;3;7;13;5;35;61;121;51;297;29;1825;495;1299;12741;3253];
[24637;1;1;1;1;13;15;49;205;235;9;849;1101;4533;10221;32419;50151];
[24664;1;1;3;13;29;31;57;77;217;195;1951;189;981;6169;22677;64415];
[24676;1;3;1;5;15;37;25;233;43;843;1205;153;6339;3767;16725;32699];
[24679;1;3;3;1;19;37;11;217;461;897;1181;2815;295;15153;25351;57211];
[24697;1;3;5;11;15;9;5;179;353;769;1457;2919;1201;14871;29549;52265];
[24709;1;1;3;3;5;51;127;221;329;543;1537;2701;2709;9311;2715;42669];
[24714;1;3;5;15;5;41;79;233;445;265;2001;935;3133;3977;3601;21389];
[24716;1;3;5;11;3;7;115;45;311;827;1897;3399;4251;5341;22621;25519];
[24731;1;3;7;1;11;57;117;103;401;505;1683;2161;4363;11189;20263;13065];
[24744;1;1;1;7;23;29;31;77;63;179;195;2747;579;11701;5101;11497];
[24762;1;3;7;3;9;33;81;165;433;545;1893;3709;3813;6615;1485;6395];
[24764;1;3;1;15;9;5;27;157;389;683;1919;509;455;3865;2303;6993];
[24769;1;3;3;9;5;5;3;5;299;59;539;1199;2443;10821;3359;44345];
[24806;1;3;5;9;21;37;87;35;501;943;1313;3929;351;9851;22971;35659];
[24812;1;3;7;11;11;33;77;175;411;315;1797;2731;4611;1809;22027;50595];
[24872;1;3;7;13;15;11;13;189;209;1015;1869;1593;6887;8571;7217;2641];
[24878;1;1;3;13;29;15;119;127;329;275;865;1693;225;15735;11071;37127];
[24883;1;3;7;13;9;31;85;25;281;401;1923;2391;3875;2079;2055;53275];
[24909;1;3;1;5;23;57;79;127;209;901;315;1165;3393;15095;1981;34993];
[24943;1;3;7;7;25;13;15;223;157;335;1061;395;6895;6283;18375;4887];
[24946;1;3;7;13;9;15;99;201;105;643;117;3027;641;13353;4343;11875];
[24964;1;1;3;11;5;51;5;77;281;207;1201;1187;8107;6625;7517;34377];
[24992;1;1;1;5;29;61;3;181;297;151;565;2713;6611;8665;32425;50399];
[25016;1;3;1;5;1;61;41;245;95;647;49;2195;5927;15531;28547;51075];
[25022;1;3;3;15;15;63;123;63;77;813;423;715;91;3793;20901;54927];
[25024;1;3;7;9;15;35;31;161;127;13;1667;1225;5279;15487;18769;24887];
[25039;1;1;3;5;27;25;61;21;447;175;1419;2691;1993;13059;30809;38325];
[25051;1;3;1;3;15;21;15;193;233;435;1993;4003;4581;13837;16535;43781];
[25060;1;1;1;5;1;11;21;253;59;59;497;77;2165;8197;5933;25743];
[25072;1;1;3;9;25;61;29;217;95;269;799;409;801;421;19065;53443];
[25097;1;1;7;1;1;41;71;59;191;867;223;1467;6679;16031;4451;15313];
[25122;1;1;1;11;13;27;7;241;167;969;1267;2953;3769;2415;30065;39483];
[25148;1;1;1;3;25;61;103;23;53;799;989;3859;7299;13613;12007;37535];
[25194;1;1;7;1;29;19;121;57;355;663;643;3723;1775;10363;1389;16039];
[25201;1;3;7;3;21;55;51;67;363;843;1187;1983;7757;5413;26575;53329];
[25204;1;3;1;3;31;55;73;55;75;533;197;1463;2933;6033;24397;41579];
[25238;1;3;1;11;9;15;107;141;473;825;901;937;7433;13119;20047;6695];
[25241;1;3;5;7;19;27;3;149;507;137;1025;1841;33;3113;15101;28187];
[25248;1;3;5;7;31;27;53;45;177;129;1241;1525;991;4141;17681;39435];
[25257;1;1;1;15;31;57;29;137;395;563;101;3367;1277;5431;1169;44321];
[25275;1;3;5;7;21;15;123;181;113;313;1763;1429;2985;715;26129;549];
[25278;1;3;3;1;15;27;27;139;507;79;1999;2505;485;7011;13369;7159];
[25304;1;3;3;11;27;53;109;179;399;657;697;421;5467;4273;7837;11631];
[25307;1;1;1;15;1;57;91;199;443;569;1945;2531;6349;4851;3931;20537];
[25320;1;1;3;13;3;3;107;237;261;377;135;2809;7239;1613;24035;26053];
[25334;1;3;3;5;3;59;65;197;411;363;1729;967;3963;4535;111;7273];
[25348;1;1;7;3;13;39;105;235;203;1015;1031;3127;1209;10817;22177;44117];
[25357;1;3;3;13;19;21;123;31;59;185;1007;1115;1965;13087;18489;34063];
[25372;1;1;7;5;27;7;33;159;245;57;2003;3229;2095;4939;31355;23121];
[25394;1;3;3;9;9;41;49;203;397;915;821;3685;2269;11159;25441;46377];
[25454;1;3;7;5;29;33;29;227;361;961;1905;1149;2799;8115;28235;25685];
[25465;1;3;1;1;19;13;73;103;11;183;853;2425;3809;2391;18615;32735];
[25472;1;1;3;3;21;57;47;57;157;43;1085;3319;461;11499;6809;10435];
[25492;1;1;5;5;17;21;55;17;421;865;159;1643;4523;1485;11937;8287];
[25505;1;1;3;11;7;43;39;37;187;797;1273;1227;2683;1249;3375;44499];
[25517;1;1;5;11;17;35;27;73;97;59;921;2171;7577;2847;93;35911];
[25530;1;1;5;1;5;17;117;189;357;581;1945;2141;1679;12019;11249;6809];
[25558;1;1;5;7;15;53;9;191;153;257;533;493;2389;4657;20757;57275];
[25562;1;1;1;11;13;35;85;37;501;525;543;4057;2001;6183;949;18465];
[25598;1;1;1;3;15;7;39;169;359;671;731;1523;211;1233;29515;57787];
[25609;1;1;3;7;27;7;41;15;71;733;1919;401;1915;4815;10571;839];
[25612;1;1;7;13;27;61;5;25;293;779;477;1537;6695;7435;1281;64369];
[25627;1;1;7;7;19;11;101;45;449;883;1181;3521;6019;16305;23429;43789];
[25651;1;1;7;5;1;49;121;89;275;367;461;1717;2733;4403;9123;35217];
[25653;1;1;7;1;1;37;41;221;281;531;357;3783;3561;8135;18405;56045];
[25668;1;3;5;7;29;9;127;37;13;519;1059;3973;7253;15159;19337;57103];
[25711;1;3;3;15;3;41;91;7;63;747;1649;3367;5945;3603;28465;511];
[25765;1;3;3;15;27;19;67;179;505;131;149;1753;3603;1135;15811;5305];
[25770;1;1;1;5;5;63;71;235;151;651;1383;249;3223;14559;26809;4551];
[25775;1;3;3;9;29;41;67;111;175;515;1123;1707;6653;8233;22775;61029];
[25777;1;3;3;9;23;1;75;145;159;785;537;1995;2241;8641;30709;41373];
[25783;1;1;5;9;21;1;87;233;401;643;197;3437;8163;6363;6537;17283];
[25801;1;3;5;3;23;19;55;243;405;369;1221;1959;5455;11729;26117;9097];
[25802;1;1;3;13;3;57;71;235;125;263;873;1079;2627;1343;1979;49519];
[25812;1;3;1;11;21;15;27;7;425;935;305;2593;4437;9517;26207;4229];
[25821;1;1;3;13;11;53;1;149;97;939;147;3365;5023;607;2083;8715];
[25897;1;1;5;3;13;13;113;51;263;837;1145;3621;5697;2867;7975;22839];
[25906;1;1;3;15;31;9;91;231;399;295;1935;4021;7669;3867;28015;9865];
[25929;1;1;1;1;13;59;51;35;407;733;1629;2429;291;11923;32129;28847];
[25940;1;3;3;11;25;21;13;117;31;547;327;2801;2247;4051;27523;4257];
[25950;1;1;7;7;15;33;15;17;255;363;1013;1463;7537;14093;21883;35389];
[25968;1;1;5;9;11;61;7;161;121;413;515;413;4439;15405;30265;23939];
[25971;1;3;7;7;11;15;5;181;315;231;1567;2985;1653;12251;269;37317];
[25977;1;3;1;11;3;15;91;45;489;571;11;1239;7705;4303;12535;21359];
[25994;1;1;7;15;29;43;81;63;483;851;389;1719;6111;15293;2513;44397];
[25996;1;1;5;15;25;33;97;131;183;269;1903;2733;7197;4507;24471;36871];
[25999;1;3;3;13;17;33;73;83;247;207;79;1139;581;12147;3539;45423];
[26001;1;1;1;15;29;49;79;151;267;393;1995;105;2873;3981;19147;53987]].
