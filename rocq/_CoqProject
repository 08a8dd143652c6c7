-Q theories Verif
theories/F32.v
theories/F32Err.v
theories/F32Lemmas.v
theories/F64Err.v
theories/MemTac.v
theories/Model_Almath.v
theories/Model_Anim.v
theories/Model_Average.v
theories/Model_Base.v
theories/Model_Builder.v
theories/Model_Collada.v
theories/Model_Dsp.v
theories/Model_Helpers.v
theories/Model_Map.v
theories/Model_Mesh.v
theories/Model_Misc.v
theories/Model_Pose.v
theories/Model_QiGeom.v
theories/Model_Rigid.v
theories/Model_RosTime.v
theories/Model_Squash.v
theories/Model_Text.v
theories/Model_Tools.v
theories/Model_Urdf.v
theories/Model_UrdfBuild.v
theories/Model_UrdfDoc.v
theories/Model_UrdfText.v
theories/Model_Vec.v
theories/NormLemmas.v
theories/Proofs_Angles.v
theories/Proofs_Anim.v
theories/Proofs_Average.v
theories/Proofs_Axis.v
theories/Proofs_Bezier.v
theories/Proofs_Builder.v
theories/Proofs_Clip.v
theories/Proofs_Collada.v
theories/Proofs_Disp.v
theories/Proofs_Dsp.v
theories/Proofs_DspFloat.v
theories/Proofs_Dubins.v
theories/Proofs_Edits.v
theories/Proofs_ExpLog.v
theories/Proofs_ExpLogExact.v
theories/Proofs_Factory.v
theories/Proofs_Feet.v
theories/Proofs_Float.v
theories/Proofs_Frames.v
theories/Proofs_Geom.v
theories/Proofs_Lits.v
theories/Proofs_Map.v
theories/Proofs_MassFloat.v
theories/Proofs_Mesh.v
theories/Proofs_Misc.v
theories/Proofs_Odom.v
theories/Proofs_PidFloat.v
theories/Proofs_Plain.v
theories/Proofs_Plane.v
theories/Proofs_Pose.v
theories/Proofs_QFloat.v
theories/Proofs_QiGeom.v
theories/Proofs_Quat.v
theories/Proofs_Reroot.v
theories/Proofs_RosTime.v
theories/Proofs_Rotation.v
theories/Proofs_Round.v
theories/Proofs_Segment.v
theories/Proofs_Shapes.v
theories/Proofs_Squash.v
theories/Proofs_Text.v
theories/Proofs_Transform.v
theories/Proofs_Turn.v
theories/Proofs_Urdf.v
theories/Proofs_UrdfBuild.v
theories/Proofs_UrdfDoc.v
theories/Proofs_UrdfText.v
theories/Proofs_Vectors.v
theories/Proofs_Walk.v
theories/Props_Angles.v
theories/Props_Anim.v
theories/Props_Average.v
theories/Props_Axis.v
theories/Props_Bezier.v
theories/Props_Builder.v
theories/Props_Clip.v
theories/Props_Collada.v
theories/Props_Disp.v
theories/Props_Dsp.v
theories/Props_DspFloat.v
theories/Props_Dubins.v
theories/Props_Edits.v
theories/Props_ExpLog.v
theories/Props_ExpLogExact.v
theories/Props_Factory.v
theories/Props_Feet.v
theories/Props_Float.v
theories/Props_Frames.v
theories/Props_Lits.v
theories/Props_Map.v
theories/Props_MassFloat.v
theories/Props_Mesh.v
theories/Props_Misc.v
theories/Props_Odom.v
theories/Props_PidFloat.v
theories/Props_Plain.v
theories/Props_Plane.v
theories/Props_Pose.v
theories/Props_QFloat.v
theories/Props_QiGeom.v
theories/Props_Quat.v
theories/Props_Reroot.v
theories/Props_RosTime.v
theories/Props_Rotation.v
theories/Props_Round.v
theories/Props_Segment.v
theories/Props_Shapes.v
theories/Props_Squash.v
theories/Props_Text.v
theories/Props_Transform.v
theories/Props_Turn.v
theories/Props_Urdf.v
theories/Props_UrdfBuild.v
theories/Props_UrdfDoc.v
theories/Props_UrdfText.v
theories/Props_Vectors.v
theories/Props_Walk.v
theories/RInst.v
theories/RLemmas.v
theories/SO3.v
theories/SO3Quat.v
theories/Scalar.v
theories/Spec_Angle.v
theories/Spec_Anim.v
theories/Spec_Average.v
theories/Spec_Axis.v
theories/Spec_Builder.v
theories/Spec_Clip.v
theories/Spec_Collada.v
theories/Spec_Disp.v
theories/Spec_Dsp.v
theories/Spec_DspFloat.v
theories/Spec_Dubins.v
theories/Spec_Edits.v
theories/Spec_Factory.v
theories/Spec_Geom.v
theories/Spec_Lits.v
theories/Spec_MassFloat.v
theories/Spec_Mesh.v
theories/Spec_Misc.v
theories/Spec_Odom.v
theories/Spec_PidFloat.v
theories/Spec_Plain.v
theories/Spec_Polygon.v
theories/Spec_Pose.v
theories/Spec_QFloat.v
theories/Spec_QiGeom.v
theories/Spec_Reroot.v
theories/Spec_RosTime.v
theories/Spec_Round.v
theories/Spec_Segment.v
theories/Spec_Squash.v
theories/Spec_Text.v
theories/Spec_Turn.v
theories/Spec_Urdf.v
theories/Spec_UrdfBuild.v
theories/Spec_UrdfDoc.v
theories/Spec_UrdfText.v
theories/Spec_Vec.v
theories/Wide.v
